(** The WorkQueue actor as a state machine over events.
    The actor handles one message, timer or task poll at a time (actix runs an actor on a single
    thread), so every synchronous section is one step; a spawned job task can be suspended at its
    await points, and other events may come in between. *)
From Verif Require Export Queue.

(** Await points of a job task (queue.rs:316-358 with job/mod.rs:131-146). *)
Inductive phase :=
  | Spawned     (* spawned by process_jobs, not polled yet *)
  | Hooked      (* before-hooks are running: PluginCenter::before(..).await *)
  | InUser      (* pre_execute / execute / post_execute are running *)
  | AfterHook.  (* PluginCenter::after(..).await, then is_failed_output, retry_at, bookkeeping *)
Global Instance phase_eq_dec : EqDecision phase.
Proof. solve_decision. Defined.

(** A spawned task: [t_orig] is the job given to execute_job_task, [t_job] execute_job's own copy. *)
Record task (M : Type) := Task { t_orig : job M; t_job : job M; t_phase : phase }.
Arguments Task {M} _ _ _.
Arguments t_orig {M} _.
Arguments t_job {M} _.
Arguments t_phase {M} _.

Inductive response (M : Type) :=
  | RUnit (r : result unit)
  | RBool (r : result bool)
  | RJob (o : option (job M))
  | RNone.
Arguments RUnit {M} _.
Arguments RBool {M} _.
Arguments RJob {M} _.
Arguments RNone {M}.

Inductive event (M : Type) :=
  | EvEnqueue (j : job M) (c : enqueue_config)       (* queue.rs:402-430 *)
  | EvCancel (id : string)                           (* queue.rs:432-459 *)
  | EvGet (id : string)                              (* queue.rs:461-493 *)
  | EvRetry (id : string)                            (* queue.rs:495-527 *)
  | EvConfig (c : wq_config)                         (* queue.rs:529-559 *)
  | EvTick                                           (* queue.rs:226-240 *)
  | EvTask (i : nat) (u : user_result M)             (* the i-th task runs to its next await *)
  | EvPanic                                          (* user code of some task panics *)
  | EvCrash                                          (* the process dies between two steps *)
  | EvCrashIn (e : event M) (n : nat)                (* it dies inside step [e], after n effects *)
  | EvStart.                                         (* a (new) process starts the queue *)
Arguments EvEnqueue {M} _ _.
Arguments EvCancel {M} _.
Arguments EvGet {M} _.
Arguments EvRetry {M} _.
Arguments EvConfig {M} _.
Arguments EvTick {M}.
Arguments EvTask {M} _ _.
Arguments EvPanic {M}.
Arguments EvCrash {M}.
Arguments EvCrashIn {M} _ _.
Arguments EvStart {M}.

(** The actor and its world: backend/clock/plugin messages [sw], configuration, spawned tasks, is the
    actor alive, and the list of user-code executions started so far (the job as passed to it). *)
Record sys (W M : Type) := Sys {
  sw : W;
  cfg : wq_config;
  tasks : list (task M);
  alive : bool;
  runs : list (job M);
}.
Arguments Sys {W M} _ _ _ _ _.
Arguments sw {W M} _.
Arguments cfg {W M} _.
Arguments tasks {W M} _.
Arguments alive {W M} _.
Arguments runs {W M} _.

(** Before the first start. *)
Definition sys_init {W M} (w : W) : sys W M := Sys w wq_config_default [] false [].

Section sys.
  Context {M : Type} `{SM : Serde M}.
  Context (prof : profile).
  Context (sched : string → option (time → option time)).
  Context (name : string).

  (** plugin/mod.rs:35-45 (before) and 47-57 (after).  The code of `after` sets `before: true`. *)
  Definition plugin_before (id : string) : prog unit := do (Send (RunHook id true)).
  Definition plugin_after (id : string) : prog unit := do (Send (RunHook id true)).

  (** queue.rs:226-236: pick and spawn; a failed pick is logged only.  Re-arming the timer
      (237-239) is left to the environment, which may deliver a tick at any time. *)
  Definition process_jobs (c : wq_config) (ts : list (task M)) : prog (list (task M)) :=
    let! r := pick_jobs_to_process prof name (max_processing_jobs c) in
    Ret (match r with
         | Ok js => ts ++ map (λ j, Task j j Spawned) js
         | Err _ => ts
         end).

  (** One poll of a task.  Returns the task's next state ([None]: completed) and the user-code
      execution it starts, if any. *)
  Definition task_step (t : task M) (u : user_result M)
      : prog (option (task M) * list (job M)) :=
    let j := t_job t in
    match t_phase t with
    | Spawned =>
        (* queue.rs:328-333, job/mod.rs:133 *)
        if is_cancelled j
        then let! _ := mark_job_is_canceled name (jid j) in Ret (None, [])
        else let! _ := plugin_before (jid j) in Ret (Some (Task (t_orig t) j Hooked), [])
    | Hooked =>
        (* job/mod.rs:136-139: run_count += 1, then user code *)
        let j' := set_ctx j (set_run_count (ctx j) (S (run_count (ctx j)))) in
        Ret (Some (Task (t_orig t) j' InUser), [j'])
    | InUser =>
        (* job/mod.rs:140-143: user code returned *)
        let j' := set_data j (ur_data u) in
        let! _ := plugin_after (jid j) in
        Ret (Some (Task (t_orig t) j' AfterHook), [])
    | AfterHook =>
        let! _ := task_tail prof sched name (t_orig t) j u in Ret (None, [])
    end.

  (** The program of one step: new configuration, tasks, executions started, answer. *)
  Definition ev_prog (c : wq_config) (ts : list (task M)) (e : event M)
      : prog (wq_config * list (task M) * list (job M) * response M) :=
    match e with
    | EvEnqueue j ec =>
        let! r := run_with_config name j ec in Ret (c, ts, [], RUnit r)
    | EvCancel id =>
        let! r := cancel_job name id in Ret (c, ts, [], RUnit r)
    | EvGet id =>
        let! r := get_job id in
        Ret (c, ts, [], RJob (match r with Ok o => o | Err _ => None end))
    | EvRetry id =>
        let! r := retry_job name id in Ret (c, ts, [], RBool r)
    | EvConfig c' => Ret (c', ts, [], RUnit (Ok tt))
    | EvTick => let! ts' := process_jobs c ts in Ret (c, ts', [], RNone)
    | EvTask i u =>
        match ts !! i with
        | None => Ret (c, ts, [], RNone)
        | Some t =>
            let! '(o, js) := task_step t u in
            Ret (c, match o with Some t' => <[i := t']> ts | None => delete i ts end, js, RNone)
        end
    | EvStart =>
        (* queue.rs:105-113: default configuration, then process_jobs *)
        let! ts' := process_jobs wq_config_default [] in
        Ret (wq_config_default, ts', [], RNone)
    | EvPanic | EvCrash | EvCrashIn _ _ => Ret (c, [], [], RNone)
    end.

  (** The answer of a queue whose actor is gone: `send` fails (queue.rs:429,458,492,526,557). *)
  Definition dead_response (e : event M) : response M :=
    match e with
    | EvEnqueue _ _ | EvCancel _ | EvConfig _ => RUnit (Err EMailbox)
    | EvRetry _ => RBool (Err EMailbox)
    | EvGet _ => RJob None
    | _ => RNone
    end.

  Context {W : Type} (h : handler W).

  (** Run the program of an event and commit its result.  After a panic (or a loop that never ends)
      the actor is gone with its tasks; what was written to the backend stays. *)
  Definition commit (s : sys W M) (e : event M) : sys W M * response M :=
    match run h (ev_prog (cfg s) (tasks s) e) (sw s) with
    | (w, Done (c, ts, js, r)) => (Sys w c ts true (runs s ++ js), r)
    | (w, _) => (Sys w (cfg s) [] false (runs s), RNone)
    end.

  Definition sys_step (s : sys W M) (e : event M) : sys W M * response M :=
    if alive s then
      match e with
      | EvStart => (s, RNone)       (* AJ::register refuses a second registration *)
      | EvPanic | EvCrash => (Sys (sw s) (cfg s) [] false (runs s), RNone)
      | EvCrashIn e' n =>
          let w := match e' with
                   | EvStart => sw s
                   | _ => run_n h n (ev_prog (cfg s) (tasks s) e') (sw s)
                   end in
          (Sys w (cfg s) [] false (runs s), RNone)
      | _ => commit s e
      end
    else
      match e with
      | EvStart => commit s e
      | EvCrashIn EvStart n =>
          (Sys (run_n h n (ev_prog (cfg s) (tasks s) EvStart) (sw s)) (cfg s) [] false (runs s), RNone)
      | _ => (s, dead_response e)
      end.

  (** A history. *)
  Definition sys_run (s : sys W M) (es : list (event M)) : sys W M :=
    fold_left (λ s e, fst (sys_step s e)) es s.

  (** aj.rs:230-239 (AJ::add_job), lib.rs:46-48 (Job::run). *)
  Definition ev_run (j : job M) : event M := EvEnqueue j new_re_run.

  (** aj.rs:187-215 (AJ::update_job): the caller first asks for the job, then submits the changed job
      with a second message; other events may be handled in between. *)
  Definition update_second (snapshot : option (job M)) (d : M) (c : option context)
      : option (event M) :=
    match snapshot with
    | Some j => Some (ev_run (Job (default (ctx j) c) d))
    | None => None
    end.
  (** update_job with nothing in between. *)
  Definition update_job (s : sys W M) (id : string) (d : M) (c : option context)
      : sys W M * response M :=
    match sys_step s (EvGet id) with
    | (s', RJob o) =>
        match update_second o d c with
        | Some e => sys_step s' e
        | None => (s', RUnit (Ok tt))
        end
    | r => r
    end.
End sys.
