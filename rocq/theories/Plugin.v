(** The plugin centre (aj_core/src/plugin/) next to one work queue. *)
From Verif Require Export Sys.

(** A registered plugin: which hook object it is, and job_type_ids (plugin/job_plugin.rs:40-52).
    A TypeId is a number. *)
Record plugin := Plugin { pl_hook : nat; pl_types : list nat }.
Global Instance plugin_eq_dec : EqDecision plugin.
Proof. solve_decision. Defined.

(** plugin/job_plugin.rs:79-85 (should_run). *)
Definition should_run (p : plugin) (ty : nat) : bool :=
  match pl_types p with
  | [] => true
  | _ => existsb (Nat.eqb ty) (pl_types p)
  end.

(** aj.rs:254-259 (AJ::register_plugin): the only public way to register; no type filter. *)
Definition public_plugin (hook : nat) : plugin := Plugin hook [].

(** Calls of the JobPlugin trait (plugin/job_plugin.rs:29-38). *)
Inductive call :=
  | CallStatus (id : string) (s : status)
  | CallBefore (id : string)
  | CallAfter (id : string).

(** What a message makes the centre call: plugin/mod.rs:99-103 (RunHook), 127 (ChangeStatus). *)
Definition call_of (m : msg) : call :=
  match m with
  | ChangeStatus id s => CallStatus id s
  | RunHook id true => CallBefore id
  | RunHook id false => CallAfter id
  end.

(** The future returned by a handler (plugin/mod.rs:95-106, 123-130): the plugins of the loop that
    are still to come, taken from a copy of the plugin list; has it been polled yet.  actix runs
    such a future concurrently with later messages.  [f_no] numbers the message. *)
Record fut := Fut { f_no : nat; f_type : nat; f_call : call; f_todo : list plugin; f_started : bool }.

(** What can be in the centre's mailbox: RegisterPlugin (plugin/mod.rs:67-71), or a message of a
    queue for the job type with the given TypeId. *)
Inductive mail := MRegister (p : plugin) | MMsg (ty : nat) (m : msg).

(** plugin/mod.rs:10-13, an actor and system service (60-65), its mailbox, oldest message first, and its running futures, oldest first.
    [c_next] is the number of the next message sent. *)
Record center := Center {
  c_plugins : list plugin;
  c_box : list (nat * mail);
  c_futs : list fut;
  c_next : nat;
}.

(** Observations, in order: a plugin is registered; message number n is sent for a
    job type; it is taken from the
    mailbox with a copy of the plugin list; plugin p is called for it; its future ends, by a panic in
    the plugin or not; user code of a job starts after waiting for message n; the process dies. *)
Inductive obs :=
  | OReg (p : plugin)
  | OSend (n : nat) (tm : nat * msg)
  | OHandle (n : nat) (ty : nat) (ps : list plugin)
  | OCall (n : nat) (p : plugin) (c : call)
  | OEnd (n : nat) (panicked : bool)
  | OStart (n : nat) (id : string)
  | OCrash.

(** Append messages to the mailbox, numbered. *)
Fixpoint post (ty : nat) (ms : list msg) (c : center) : center * list obs :=
  match ms with
  | [] => (c, [])
  | m :: ms' =>
      let (c', os) := post ty ms' (Center (c_plugins c) (c_box c ++ [(c_next c, MMsg ty m)]) (c_futs c)
                                    (S (c_next c))) in
      (c', OSend (c_next c) (ty, m) :: os)
  end.

(** Taking the next message: plugin/mod.rs:73-78, 92-97, 120-125. *)
Definition handle (c : center) : center * list obs :=
  match c_box c with
  | [] => (c, [])
  | (_, MRegister p) :: box =>
      (Center (c_plugins c ++ [p]) box (c_futs c) (c_next c), [OReg p])
  | (n, MMsg ty m) :: box =>
      (Center (c_plugins c) box (c_futs c ++ [Fut n ty (call_of m) (c_plugins c) false]) (c_next c),
       [OHandle n ty (c_plugins c)])
  end.

(** The first plugin of the loop that should run, and the rest of the loop (job_plugin.rs:54-77). *)
Fixpoint next_plugin (ty : nat) (ps : list plugin) : option (plugin * list plugin) :=
  match ps with
  | [] => None
  | p :: ps' => if should_run p ty then Some (p, ps') else next_plugin ty ps'
  end.

(** Polling the i-th future: it goes on with the next plugin that should run, or ends.  [ok = false]:
    the plugin panics; then the future is gone.  New futures get their first poll in the order in
    which they were created. *)
Definition poll (c : center) (i : nat) (ok : bool) : center * list obs :=
  match c_futs c !! i with
  | Some f =>
      if forallb f_started (take i (c_futs c)) then
        match next_plugin (f_type f) (f_todo f) with
        | None =>
            (Center (c_plugins c) (c_box c) (delete i (c_futs c)) (c_next c), [OEnd (f_no f) false])
        | Some (p, rest) =>
            if ok then
              (Center (c_plugins c) (c_box c)
                 (<[i := Fut (f_no f) (f_type f) (f_call f) rest true]> (c_futs c)) (c_next c),
               [OCall (f_no f) p (f_call f)])
            else
              (Center (c_plugins c) (c_box c) (delete i (c_futs c)) (c_next c),
               [OCall (f_no f) p (f_call f); OEnd (f_no f) true])
        end
      else (c, [])
  | None => (c, [])
  end.

(** Is message n still unanswered? *)
Definition unanswered (c : center) (n : nat) : bool :=
  existsb (λ x, Nat.eqb n x.1) (c_box c) || existsb (λ f, Nat.eqb n (f_no f)) (c_futs c).

Section psys.
  Context {M : Type} `{SM : Serde M}.
  Context (prof : profile).
  Context (sched : string → option (time → option time)).
  Context (name : string).
  Context (clock : nat → time).
  (** TypeId of Job<M>. *)
  Context (ty : nat).

  Inductive pevent :=
    | PEv (e : event M)                (* an event of the queue *)
    | PRegister (p : plugin)           (* plugin/mod.rs:16-21 *)
    | POther (ty' : nat) (m : msg)     (* another queue sends a message *)
    | PHandle
    | PPoll (i : nat) (ok : bool).

  (** The queue, the centre, for every task of the queue the number of the message it waits for (if it
      waits), and what was observed. *)
  Record psys := PSys { p_sys : sys world M; p_center : center; p_waits : list nat; p_trace : list obs }.

  Definition psys_init : psys := PSys (sys_init world_empty) (Center [] [] [] 0) [] [].

  (** Tasks that wait for the answer to a RunHook message: `send(msg).await` in plugin/mod.rs:44,56. *)
  Definition blocked (s : psys) (e : event M) : bool :=
    match e with
    | EvTask i _ =>
        match tasks (p_sys s) !! i, p_waits s !! i with
        | Some t, Some n =>
            match t_phase t with
            | Hooked | AfterHook => unanswered (p_center s) n
            | _ => false
            end
        | _, _ => false
        end
    | _ => false
    end.

  (** User code starting in this event. *)
  Definition starts (s : psys) (e : event M) : list obs :=
    match e with
    | EvTask i _ =>
        match tasks (p_sys s) !! i, p_waits s !! i with
        | Some t, Some n =>
            match t_phase t with
            | Hooked => if alive (p_sys s) then [OStart n (jid (t_job t))] else []
            | _ => []
            end
        | _, _ => []
        end
    | _ => []
    end.

  (** The waits after an event: a task that was polled waits for the next message number (which is
      its RunHook, if it sends one), a finished task is removed, new tasks do not wait. *)
  Definition new_waits (e : event M) (before after_ : nat) (next : nat) (ws : list nat) : list nat :=
    match e with
    | EvTask i _ =>
        if (after_ =? before)%nat then <[i := next]> ws else take after_ (delete i ws)
    | _ => take after_ (ws ++ replicate after_ next)
    end.

  Definition psys_step (s : psys) (e : pevent) : psys :=
    match e with
    | PEv e' =>
        if blocked s e' then s
        else
          let q := p_sys s in
          let q' := fst (sys_step prof sched name (mem_h clock) q e') in
          let ms := drop (length (log (sw q))) (log (sw q')) in
          let ws := new_waits e' (length (tasks q)) (length (tasks q')) (c_next (p_center s)) (p_waits s) in
          match e' with
          | EvCrash | EvCrashIn _ _ =>
              (* the process dies: the centre is gone too; messages sent in the last step are lost *)
              PSys q' (Center [] [] [] (c_next (p_center s))) ws (p_trace s ++ [OCrash])
          | _ =>
              let (c', os) := post ty ms (p_center s) in
              PSys q' c' ws (p_trace s ++ starts s e' ++ os)
          end
    | PRegister p =>
        let c := p_center s in
        PSys (p_sys s)
             (Center (c_plugins c) (c_box c ++ [(c_next c, MRegister p)]) (c_futs c) (S (c_next c)))
             (p_waits s) (p_trace s)
    | POther ty' m =>
        let (c', os) := post ty' [m] (p_center s) in
        PSys (p_sys s) c' (p_waits s) (p_trace s ++ os)
    | PHandle =>
        let (c', os) := handle (p_center s) in PSys (p_sys s) c' (p_waits s) (p_trace s ++ os)
    | PPoll i ok =>
        let (c', os) := poll (p_center s) i ok in PSys (p_sys s) c' (p_waits s) (p_trace s ++ os)
    end.

  Definition psys_run (s : psys) (es : list pevent) : psys := fold_left psys_step es s.
End psys.
Arguments PEv {M} _.
Arguments PRegister {M} _.
Arguments POther {M} _ _.
Arguments PHandle {M}.
Arguments PPoll {M} _ _.
Arguments PSys {M} _ _ _ _.
Arguments p_sys {M} _.
Arguments p_center {M} _.
Arguments p_waits {M} _.
Arguments p_trace {M} _.
Arguments psys : clear implicits.
Arguments pevent : clear implicits.
