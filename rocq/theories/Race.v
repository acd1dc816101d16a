(** Several queues or processes on one storage, call by call.  A backend call is atomic (mem.rs:22-115
    holds the mutex for the whole call; a Redis command is atomic), nothing else is: between any two
    calls of one step (queue.rs:115-391) other processes may do anything.  A worker does one step at a
    time, because its actor and its tasks share one arbiter (queue.rs:105-113, 314-323) and no step
    waits in the middle: the backend calls block.  Every call may fail before or after its effect, and
    every process may die at any point.  Unlike [joint] of Multi.v, the steps a process begins may
    depend on what happened before, and unlike the fleet of Workers.v, steps of processes overlap. *)
From Verif Require Export Workers.

Section race.
  Context {M : Type} `{SM : Serde M}.
  (** Process i may be another build on another machine, with a clock of its own, and a queue of another
      name. *)
  Context (prof : nat → profile).
  Context (sched : nat → string → option (time → option time)).
  Context (name : nat → string).
  (** The storage, and how process i uses it: [mem_h] or [redis_h] of Backend.v with its clock. *)
  Context {W : Type} (h : nat → handler W).

  (** *** A step with any number of rounds *)
  (** queue.rs:252-312 as in Queue.v, where the bound on the rounds of the loop is the length of the
      list, which is enough for one worker.  Another process may shorten the list meanwhile, so here the
      bound has no meaning: [fuel] is any number, and what is said of every [fuel] is said of the loop
      without a bound, as a run of n calls is the same for every [fuel] greater than n. *)
  Definition try_pick (fuel i total : nat) : prog (result (list (job M))) :=
    let? len := do (QCount (format_queue_name (name i) Queued)) in
    pick_loop (prof i) (name i) (fuel + S len) total [] (wrap32 (Z.of_nat len)).
  (** queue.rs:242-250. *)
  Definition pick_jobs (fuel i max_jobs : nat) : prog (result (list (job M))) :=
    let! r := do (QCount (format_queue_name (name i) Running)) in
    let processing := match r with Ok n => n | Err _ => 0%nat end in
    if (max_jobs <=? processing)%nat then Ret (Ok [])
    else try_pick fuel i (max_jobs - processing).
  (** queue.rs:226-236. *)
  Definition do_tick (fuel i : nat) (c : wq_config) (ts : list (task M)) : prog (list (task M)) :=
    let! r := pick_jobs fuel i (max_processing_jobs c) in
    Ret (match r with
         | Ok js => ts ++ map (λ j, Task j j Spawned) js
         | Err _ => ts
         end).
  (** The result of a step, and the step, as [ev_prog] of Sys.v. *)
  Definition step_result : Type := wq_config * list (task M) * list (job M) * response M.
  Definition step_of (fuel i : nat) (c : wq_config) (ts : list (task M)) (e : event M) : prog step_result :=
    match e with
    | EvTick => let! ts' := do_tick fuel i c ts in Ret (c, ts', [], RNone)
    | EvStart =>
        let! ts' := do_tick fuel i wq_config_default [] in Ret (wq_config_default, ts', [], RNone)
    | _ => ev_prog (prof i) (sched i) (name i) c ts e
    end.

  (** *** The processes *)
  (** A process: queue.rs:47-55, the tasks on its arbiter, and what is left of the step it is doing. *)
  Record proc := Proc {
    p_cfg : wq_config;
    p_tasks : list (task M);
    p_alive : bool;
    p_now : option (event M * prog step_result);
  }.
  (** The storage (with the count of clock readings and the messages of all, as in Workers.v), the
      processes, the executions of user code and the answers of finished steps so far, with the process
      that gave them. *)
  Record race := Race {
    r_world : W;
    r_procs : list proc;
    r_runs : list (nat * job M);
    r_answers : list (nat * event M * response M);
  }.
  (** Process i begins a step; performs the next backend call, clock reading or message of its step, the
      call failing as [f] says, or completes it; or dies. *)
  Inductive race_event :=
  | RBegin (i : nat) (e : event M) (fuel : nat)
  | RCall (i : nat) (f : fault)
  | RDie (i : nat).

  (** [faulty_h] of Backend.v for one call. *)
  Definition call_h (i : nat) (f : fault) (X : Set) (e : eff X) (w : W) : W * X :=
    match fail_ans e, f with
    | Some bad, FBefore => (w, bad)
    | Some bad, FAfter => ((h i X e w).1, bad)
    | _, _ => h i X e w
    end.

  (** A process that is gone: its tasks and its step with it. *)
  Definition gone (p : proc) : proc := Proc (p_cfg p) [] false None.
  Definition put (r : race) (i : nat) (p : proc) : race :=
    Race (r_world r) (<[i := p]> (r_procs r)) (r_runs r) (r_answers r).

  (** [sys_step] of Sys.v up to the first call.  A busy process takes no message from its mailbox, a dead
      one takes none until it is started (aj.rs:128-145 for the second start). *)
  Definition race_begin (fuel i : nat) (p : proc) (e : event M) : proc :=
    match p_now p with
    | Some _ => p
    | None =>
        if p_alive p then
          match e with
          | EvStart | EvCrashIn _ _ => p
          | EvPanic | EvCrash => gone p
          | _ => Proc (p_cfg p) (p_tasks p) true
                   (Some (e, step_of fuel i (p_cfg p) (p_tasks p) e))
          end
        else
          match e with
          | EvStart => Proc (p_cfg p) (p_tasks p) false
                         (Some (e, step_of fuel i (p_cfg p) (p_tasks p) e))
          | _ => p
          end
    end.
  (** One effect, or the end of the step ([commit] of Sys.v). *)
  Definition race_call (r : race) (i : nat) (f : fault) (p : proc) : race :=
    match p_now p with
    | None => r
    | Some (e, Eff e' k) =>
        let (w', x) := call_h i f _ e' (r_world r) in
        Race w' (<[i := Proc (p_cfg p) (p_tasks p) (p_alive p) (Some (e, k x))]> (r_procs r))
          (r_runs r) (r_answers r)
    | Some (e, Ret (c, ts, js, a)) =>
        Race (r_world r) (<[i := Proc c ts true None]> (r_procs r))
          (r_runs r ++ map (pair i) js) (r_answers r ++ [(i, e, a)])
    | Some (e, _) => put r i (gone p)
    end.
  Definition race_step (r : race) (x : race_event) : race :=
    match x with
    | RBegin i e n => match r_procs r !! i with Some p => put r i (race_begin n i p e) | None => r end
    | RCall i f => match r_procs r !! i with Some p => race_call r i f p | None => r end
    | RDie i => match r_procs r !! i with Some p => put r i (gone p) | None => r end
    end.
  Definition race_run (r : race) (xs : list race_event) : race := fold_left race_step xs r.
  (** n processes, none started, on the storage [w]. *)
  Definition race_init (w : W) (n : nat) : race :=
    Race w (repeat (Proc wq_config_default [] false None) n) [] [].
End race.
Arguments proc M : clear implicits.
Arguments race M W : clear implicits.
Arguments race_event M : clear implicits.
