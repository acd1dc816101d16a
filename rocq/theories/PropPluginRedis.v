(** Plugins next to a queue on Redis. *)
From Verif Require Import SpecPluginRedis PluginRedisFacts PropPlugin PropWait Demo.

Section theorems.
  Context {M : Type} `{SM : Serde M}.
  Context (prof : profile).
  Context (sched : string → option (time → option time)).
  Context (name : string).
  Context (clock : nat → time).
  Context (ty : nat).
  Notation step := (sys_step prof sched name (redis_h clock)).
  Notation after := (rp_after prof sched name clock ty).
  Notation pafter := (pafter prof sched name clock ty).

  (** C121: in any history of queue, centre, registrations, messages of other queues, panics of plugins and
      crashes, plugins see on Redis what they see on the in-memory store, in the same order, and so does the
      rest of the program. *)
  Theorem C121_same_view es :
    rp_trace (after es) = p_trace (pafter es) ∧ rp_center (after es) = p_center (pafter es) ∧
    rp_waits (after es) = p_waits (pafter es) ∧ shows_same name (p_sys (pafter es)) (rp_sys (after es)).
  Proof. exact (pafter_view prof sched name clock ty es). Qed.

  (** C121: user code starts only after the plugins registered when its message was handled have been called
      with before_run, in order, all of them or up to one that panicked. *)
  Theorem C121_before_run es pre n id suf :
    rp_trace (after es) = pre ++ OStart n id :: suf →
    ∃ ps, (∃ pre1 pre2, pre = pre1 ++ OHandle n ty ps :: pre2 ∧ ps = registered pre1) ∧
      (about n pre = OSend n (ty, RunHook id true) :: OHandle n ty ps
         :: calls_to n (CallBefore id) (filter (meant_for ty) ps) ++ [OEnd n false] ∨
       ∃ called p todo, filter (meant_for ty) ps = called ++ p :: todo ∧
         about n pre = OSend n (ty, RunHook id true) :: OHandle n ty ps
           :: calls_to n (CallBefore id) (called ++ [p]) ++ [OEnd n true]).
  Proof. exact (r_started prof sched name clock ty es pre n id suf). Qed.
  (** C121: every execution has a message of its own, and the starts are the executions of the queue. *)
  Theorem C121_own_message es :
    NoDup (waited (rp_trace (after es))) ∧
    omap (λ o, match o with OStart _ id => Some id | _ => None end) (rp_trace (after es)) =
    map jid (runs (rp_sys (after es))).
  Proof. exact (r_own prof sched name clock ty es). Qed.
  (** C121: every message is handled at most once, and so is every call it asks for. *)
  Theorem C121_messages es n : story n (about n (rp_trace (after es))).
  Proof. exact (r_story prof sched name clock ty es n). Qed.
  (** C121: no plugin is ever called with after_run. *)
  Theorem C121_never_after_run es n p id :
    Forall (λ e : pevent M, no_after_message e) es → OCall n p (CallAfter id) ∉ rp_trace (after es).
  Proof. exact (r_never_after prof sched name clock ty es n p id). Qed.
  (** C121: the messages sent are those of the queue; the plugin registered first gets all of them, in order,
      once they are answered. *)
  Theorem C121_messages_of_queue es :
    Forall (λ e : pevent M, one_process e ∧ one_queue e) es →
    map snd (sends (rp_trace (after es))) =
    rlog (sw (sys_run prof sched name (redis_h clock) (sys_init rworld_empty)
                (r_queue_events prof sched name clock ty rpsys_init es))).
  Proof. exact (r_sends prof sched name clock ty es). Qed.
  Theorem C121_first_plugin_calls p es :
    pl_types p = [] → Forall (λ e : pevent M, one_process e ∧ e ≠ PRegister p) es →
    let tr := rp_trace (after (PRegister p :: es)) in
    (∀ n tm, OSend n tm ∈ tr → ∃ b, OEnd n b ∈ tr) →
    calls_of p tr = map (λ nm, (nm.1, call_of nm.2)) (sends tr).
  Proof. exact (r_first_calls prof sched name clock ty p es). Qed.

  (** C121: an execution waits only for the answer to a message of its own; nothing else waits; and all
      messages can always be answered, after which every event of the queue goes on. *)
  Theorem C121_who_waits es :
    let s := after es in
    ∃ no : nat → nat, ∀ i (t : task M), tasks (rp_sys s) !! i = Some t → waiting t →
      OSend (no i) (ty, RunHook (jid (t_job t)) true) ∈ rp_trace s ∧ no i ∉ waited (rp_trace s) ∧
      (∀ k t', tasks (rp_sys s) !! k = Some t' → waiting t' → no k = no i → k = i) ∧
      ∀ u, let s' := after (es ++ [PEv (EvTask i u)]) in
        (¬ ended (no i) (rp_trace s) → s' = s) ∧
        (ended (no i) (rp_trace s) → rp_sys s' = (step (rp_sys s) (EvTask i u)).1).
  Proof. exact (r_who_waits prof sched name clock ty es). Qed.
  Theorem C121_others_go es (e : event M) :
    (∀ i u t, e = EvTask i u → tasks (rp_sys (after es)) !! i = Some t → ¬ waiting t) →
    rp_sys (after (es ++ [PEv e])) = (step (rp_sys (after es)) e).1.
  Proof. exact (r_others_go prof sched name clock ty es e). Qed.
  Theorem C121_answered es :
    ∃ ks : list (pevent M), Forall (λ e, e = PHandle ∨ e = PPoll 0 true) ks ∧
      let s' := after (es ++ ks) in
      rp_sys s' = rp_sys (after es) ∧
      (∀ n tm, OSend n tm ∈ lately (rp_trace s') → ended n (rp_trace s')) ∧
      ∀ e, rp_sys (after (es ++ ks ++ [PEv e])) = (step (rp_sys (after es)) e).1.
  Proof. exact (r_drained prof sched name clock ty es). Qed.
End theorems.
Print Assumptions C121_same_view.
Print Assumptions C121_before_run.
Print Assumptions C121_own_message.
Print Assumptions C121_messages.
Print Assumptions C121_never_after_run.
Print Assumptions C121_messages_of_queue.
Print Assumptions C121_first_plugin_calls.
Print Assumptions C121_who_waits.
Print Assumptions C121_others_go.
Print Assumptions C121_answered.

(** *** Cases *)
Definition rdemo_pafter : list (pevent Z) → rpsys Z := rp_after Debug demo_sched "q" demo_clock 7.
(** One execution with two plugins on Redis. *)
Example C121_case :
  let tr := rp_trace (rdemo_pafter (PRegister pl1 :: run_once)) in
  (∃ pre suf, tr = pre ++ OStart 4 "a" :: suf ∧
    about 4 pre = [OSend 4 (7%nat, RunHook "a" true); OHandle 4 7 [pl1; pl2]; OCall 4 pl1 (CallBefore "a");
                   OCall 4 pl2 (CallBefore "a"); OEnd 4 false]) ∧
  map snd (calls_of pl1 tr) =
    [CallStatus "a" Queued; CallStatus "a" Running; CallBefore "a"; CallBefore "a"; CallStatus "a" Finished] ∧
  Forall (λ e : pevent Z, no_after_message e) (PRegister pl1 :: run_once) ∧
  Forall (λ e : pevent Z, one_process e ∧ e ≠ PRegister pl1) run_once ∧
  map fst (sends tr) = [2; 3; 4; 5; 6]%nat ∧
  omap (λ o, match o with OEnd n false => Some n | _ => None end) tr = [2; 3; 4; 5; 6]%nat ∧
  map jid (runs (rp_sys (rdemo_pafter (PRegister pl1 :: run_once)))) = ["a"].
Proof.
  cbv zeta. split.
  { exists (take 17 (rp_trace (rdemo_pafter (PRegister pl1 :: run_once)))),
           (drop 18 (rp_trace (rdemo_pafter (PRegister pl1 :: run_once)))). split; by vm_compute. }
  split; [by vm_compute|].
  split. { unfold run_once. cbn. repeat constructor. }
  split. { unfold run_once. cbn. repeat (constructor; [by repeat split|]). constructor. }
  split; [by vm_compute|]. split; by vm_compute.
Qed.
Example C121_case_queue :
  let es := PRegister pl1 :: run_once in
  Forall (λ e : pevent Z, one_process e ∧ one_queue e) es ∧
  map snd (sends (rp_trace (rdemo_pafter es))) =
    [ChangeStatus "a" Queued; ChangeStatus "a" Running; RunHook "a" true; RunHook "a" true; ChangeStatus "a" Finished].
Proof.
  cbv zeta. split; [|by vm_compute]. unfold run_once. cbn. repeat (constructor; [by repeat split|]). constructor.
Qed.
(** Two executions wait, "a" after user code, "b" before it; they go on when their messages are answered. *)
Example C121_case_wait :
  let s := rdemo_pafter two_wait in
  map (λ t : task Z, (jid (t_job t), t_phase t)) (tasks (rp_sys s)) = [("a", AfterHook); ("b", Hooked)] ∧
  omap (λ o, match o with OEnd n _ => Some n | _ => None end) (rp_trace s) = [2; 3; 4; 5; 6]%nat ∧
  tasks (rp_sys (rdemo_pafter (two_wait ++ [PEv (EvTask 0 (demo_ok 2)); PEv (EvTask 1 (demo_ok 2))]))) = tasks (rp_sys s) ∧
  map t_phase (tasks (rp_sys (rdemo_pafter (two_wait ++ [PHandle; PHandle; PPoll 0 true; PPoll 1 false; PEv (EvTask 0 (demo_ok 2));
    PEv (EvTask 1 (demo_ok 2))])))) = [AfterHook; InUser].
Proof. cbv zeta. split; [by vm_compute|]. split; [by vm_compute|]. split; by vm_compute. Qed.
