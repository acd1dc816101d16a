(** Who waits for plugins, and for how long. *)
From Verif Require Import Spec SpecPlugin PluginWait PropPlugin Demo.

Section theorems.
  Context {M : Type} `{SM : Serde M}.
  Context (prof : profile).
  Context (sched : string → option (time → option time)).
  Context (name : string).
  Context (clock : nat → time).
  Context (ty : nat).
  Notation step := (sys_step prof sched name (mem_h clock)).
  Notation pafter := (pafter prof sched name clock ty).

  (** C96: each execution that waits has sent a message of its own, which no execution has waited for
      before.  As long as this message is not answered, polling the execution changes nothing; once it is,
      the execution goes on as in a queue without plugins. *)
  Theorem C96_who_waits es :
    let s := pafter es in
    ∃ no : nat → nat, ∀ i (t : task M), tasks (p_sys s) !! i = Some t → waiting t →
      OSend (no i) (ty, RunHook (jid (t_job t)) true) ∈ p_trace s ∧ no i ∉ waited (p_trace s) ∧
      (∀ k t', tasks (p_sys s) !! k = Some t' → waiting t' → no k = no i → k = i) ∧
      ∀ u, let s' := pafter (es ++ [PEv (EvTask i u)]) in
        (¬ ended (no i) (p_trace s) → s' = s) ∧
        (ended (no i) (p_trace s) → p_sys s' = (step (p_sys s) (EvTask i u)).1).
  Proof. exact (who_waits prof sched name clock ty es). Qed.

  (** C96: nothing else waits: no message to the queue, no tick, no other execution. *)
  Theorem C96_others_go es (e : event M) :
    (∀ i u t, e = EvTask i u → tasks (p_sys (pafter es)) !! i = Some t → ¬ waiting t) →
    p_sys (pafter (es ++ [PEv e])) = (step (p_sys (pafter es)) e).1.
  Proof. exact (others_go prof sched name clock ty es e). Qed.

  (** C96: the centre never hangs: if a message sent since the process started is not answered, then
      taking a message from the mailbox or polling the oldest future is progress. *)
  Theorem C96_no_deadlock es n tm :
    OSend n tm ∈ lately (p_trace (pafter es)) → ¬ ended n (p_trace (pafter es)) →
    ∃ e : pevent M, (e = PHandle ∨ e = PPoll 0 true) ∧
      ∃ o, p_trace (pafter (es ++ [e])) = p_trace (pafter es) ++ [o].
  Proof. exact (moves prof sched name clock ty es n tm). Qed.

  (** C96: and it does not go on for ever: however its steps are ordered, and whatever plugins panic, there
      is a bound on what the centre does before a new message is sent, and the queue is as it was. *)
  Theorem C96_no_livelock es :
    ∃ b, ∀ ks : list (pevent M), Forall of_centre ks →
      p_sys (pafter (es ++ ks)) = p_sys (pafter es) ∧ (length (p_trace (pafter (es ++ ks))) <= b)%nat.
  Proof. exact (bounded prof sched name clock ty es). Qed.

  (** C96: so all messages can be answered, and then every event of the queue goes on. *)
  Theorem C96_answered es :
    ∃ ks : list (pevent M), Forall (λ e, e = PHandle ∨ e = PPoll 0 true) ks ∧
      let s' := pafter (es ++ ks) in
      p_sys s' = p_sys (pafter es) ∧
      (∀ n tm, OSend n tm ∈ lately (p_trace s') → ended n (p_trace s')) ∧
      ∀ e, p_sys (pafter (es ++ ks ++ [PEv e])) = (step (p_sys (pafter es)) e).1.
  Proof. exact (drained prof sched name clock ty es). Qed.
End theorems.
Print Assumptions C96_who_waits.
Print Assumptions C96_others_go.
Print Assumptions C96_no_deadlock.
Print Assumptions C96_no_livelock.
Print Assumptions C96_answered.

(** *** Cases *)
(** Two executions: "a" waits for the answer after user code, "b" for the one before it. *)
Definition two_wait : list (pevent Z) :=
  PRegister pl1 :: two_plugins
  ++ [PEv EvStart; PEv (EvEnqueue (demo_job "a" 1) new_re_run); PEv (EvEnqueue (demo_job "b" 1) new_re_run);
      PEv EvTick; PEv (EvTask 0 (demo_ok 2))] ++ answer 5
  ++ [PEv (EvTask 0 (demo_ok 2)); PEv (EvTask 0 (demo_ok 2)); PEv (EvTask 1 (demo_ok 2))].
Example C96_case :
  let s := demo_pafter two_wait in
  map (λ t : task Z, (jid (t_job t), t_phase t)) (tasks (p_sys s)) = [("a", AfterHook); ("b", Hooked)] ∧
  drop 4 (sends (p_trace s)) = [(6%nat, RunHook "a" true); (7%nat, RunHook "a" true); (8%nat, RunHook "b" true)] ∧
  omap (λ o, match o with OEnd n _ => Some n | _ => None end) (p_trace s) = [2; 3; 4; 5; 6]%nat ∧
  lately (p_trace s) = p_trace s ∧
  tasks (p_sys (demo_pafter (two_wait ++ [PEv (EvTask 0 (demo_ok 2)); PEv (EvTask 1 (demo_ok 2))]))) = tasks (p_sys s) ∧
  map t_phase (tasks (p_sys (demo_pafter (two_wait ++ [PHandle; PHandle; PPoll 0 true; PPoll 1 false; PEv (EvTask 0 (demo_ok 2));
    PEv (EvTask 1 (demo_ok 2))])))) = [AfterHook; InUser].
Proof.
  cbv zeta. split; [by vm_compute|]. split; [by vm_compute|]. split; [by vm_compute|]. split; [by vm_compute|]. split; by vm_compute.
Qed.
