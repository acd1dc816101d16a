(** Plugins: run hooks and status notifications. *)
From Coq Require Import Sorting.Sorted.
From Verif Require Import SpecPlugin HistFacts PluginFacts NoteFacts PluginOrder Demo.

Section theorems.
  Context {M : Type} `{SM : Serde M} {SO : SerdeOk M}.
  Context (prof : profile).
  Context (sched : string → option (time → option time)).
  Context (name : string).
  Context (clock : nat → time).
  Context (ty : nat).
  Notation after := (after prof sched name clock).
  Notation pafter := (pafter prof sched name clock ty).
  Notation ok_hist := (ok_hist prof sched name clock).
  Notation status_path := (status_path prof sched name clock).
  Notation queue_events := (queue_events prof sched name clock ty).
  Notation initial := (sys_init world_empty : sys world M).

  (** C43, the part that holds.  Any history of queue, plugin centre, registrations, messages of other
      queues, plugin panics, crashes: user code starts only after a RunHook message of its own was
      handled, with the plugins registered at that time, and before_run was called once on each of
      them meant for the type, in order of registration, or up to one that panicked. *)
  Theorem C43_before_run es pre n id suf :
    p_trace (pafter es) = pre ++ OStart n id :: suf →
    ∃ ps, (∃ pre1 pre2, pre = pre1 ++ OHandle n ty ps :: pre2 ∧ ps = registered pre1) ∧
      (about n pre = OSend n (ty, RunHook id true) :: OHandle n ty ps
         :: calls_to n (CallBefore id) (filter (meant_for ty) ps) ++ [OEnd n false] ∨
       ∃ called p todo, filter (meant_for ty) ps = called ++ p :: todo ∧
         about n pre = OSend n (ty, RunHook id true) :: OHandle n ty ps
           :: calls_to n (CallBefore id) (called ++ [p]) ++ [OEnd n true]).
  Proof. exact (started_after_hooks prof sched name clock ty es pre n id suf). Qed.

  (** Every execution has a message of its own, and the starts are the executions of the queue. *)
  Theorem C43_own_message es :
    NoDup (waited (p_trace (pafter es))) ∧
    omap (λ o, match o with OStart _ id => Some id | _ => None end) (p_trace (pafter es)) =
    map jid (runs (p_sys (pafter es))).
  Proof.
    exact (conj (pi_nodup ty _ (pinv_after prof sched name clock ty es))
                (pi_runs ty _ (pinv_after prof sched name clock ty es))).
  Qed.

  (** Every message, whatever happens: sent, handled once, each plugin meant for it called at most
      once, in order of registration, with the call it asks for, and nothing after its end. *)
  Theorem C43_messages es n : story n (about n (p_trace (pafter es))).
  Proof. exact (c_story _ _ (pi_c ty _ (pinv_after prof sched name clock ty es)) n). Qed.

  (** C43 is false: no plugin is ever called with after_run, in any history. *)
  Theorem C43_after_run_refuted es n p id :
    Forall (λ e : pevent M, no_after_message e) es → OCall n p (CallAfter id) ∉ p_trace (pafter es).
  Proof. exact (never_after prof sched name clock ty es n p id). Qed.

  (** And before_run is asked for twice per execution. *)
  Theorem C43_exactly_once_refuted es id :
    Forall calm es → alive (after (EvStart :: es)) = true →
    (∀ t, t ∈ tasks (after (EvStart :: es)) → jid (t_job t) ≠ id) →
    hooks id (log (sw (after (EvStart :: es)))) =
    replicate (2 * length (runs_of id (after (EvStart :: es)))) true.
  Proof. exact (twice prof sched name clock es id). Qed.

  (** C44: on every backend, failing or not, in every history with crashes: a status notification
      directly follows a successful write of a job with this id and status; hook messages are all
      before-hooks. *)
  Theorem C44_notify_after_write {W} (h : handler W) (w : W) (es : list (event M)) pre m suf :
    (sw (sys_run prof sched name (traced h) (sys_init (w, [])) es)).2 = pre ++ ASend m :: suf →
    match m with
    | ChangeStatus id s =>
        ∃ pre' (j : job M), pre = pre' ++ [AUpsert id (enc_job j) true] ∧ jid j = id ∧ jstatus (ctx j) = s
    | RunHook _ b => b = true
    end.
  Proof.
    exact (honest_acts_spec _ pre m suf
      (run_honest_hist prof sched name h (sys_init (w, [])) es (ha_nil (M := M)))).
  Qed.

  (** C44: without new_skip_if_finished, the notifications sent for an id are exactly its status
      changes. *)
  Theorem C44_notes_are_status_path (es : list (event M)) id :
    ok_hist initial es → (∀ e, e ∈ es → ¬ overwrites_only e) →
    notes id (log (sw (after es))) = status_path id initial es.
  Proof. exact (notes_path prof sched name clock initial es id (all_at_initial name)). Qed.

  (** C44: the plugin registered first hears of exactly the status changes, in order, once all
      messages are answered; the calls it gets are the messages sent, in order. *)
  Theorem C44_first_plugin p es id :
    pl_types p = [] →
    Forall (λ e : pevent M, one_process e ∧ one_queue e ∧ e ≠ PRegister p) es →
    let tr := p_trace (pafter (PRegister p :: es)) in
    let qs := queue_events psys_init (PRegister p :: es) in
    (∀ n tm, OSend n tm ∈ tr → ∃ b, OEnd n b ∈ tr) →
    ok_hist initial qs → (∀ e, e ∈ qs → ¬ overwrites_only e) →
    reported id (calls_of p tr) = status_path id initial qs.
  Proof. exact (first_reports prof sched name clock ty p es id). Qed.
  Theorem C44_first_plugin_calls p es :
    pl_types p = [] → Forall (λ e : pevent M, one_process e ∧ e ≠ PRegister p) es →
    let tr := p_trace (pafter (PRegister p :: es)) in
    (∀ n tm, OSend n tm ∈ tr → ∃ b, OEnd n b ∈ tr) →
    calls_of p tr = map (λ nm, (nm.1, call_of nm.2)) (sends tr).
  Proof. exact (first_calls prof sched name clock ty p es). Qed.
  (** At any time, answered or not, in the order of the messages. *)
  Theorem C44_first_plugin_order p es :
    pl_types p = [] → Forall (λ e : pevent M, one_process e ∧ e ≠ PRegister p) es →
    StronglySorted lt (map fst (calls_of p (p_trace (pafter (PRegister p :: es))))).
  Proof. intros H1 H2. exact (fi_sorted _ _ _ (first_after prof sched name clock ty p es H1 H2)). Qed.
  (** The messages sent in a process are those of its queues. *)
  Theorem C44_messages_of_queue es :
    Forall (λ e : pevent M, one_process e ∧ one_queue e) es →
    map snd (sends (p_trace (pafter es))) =
    log (sw (sys_run prof sched name (mem_h clock) initial (queue_events psys_init es))).
  Proof.
    intros H. rewrite <-(prun_queue prof sched name clock ty es psys_init).
    exact (prun_sends prof sched name clock ty es psys_init H eq_refl).
  Qed.
End theorems.

(** *** Cases *)
Definition demo_pafter : list (pevent Z) → psys Z := pafter Debug demo_sched "q" demo_clock 7.
Definition pl1 := public_plugin 1.
Definition pl2 := public_plugin 2.
(** The messages on the way are answered, oldest first. *)
Definition answer (k : nat) : list (pevent Z) :=
  repeat PHandle k ++ concat (repeat [PPoll 0 true; PPoll 0 true; PPoll 0 true] k).
Definition two_plugins : list (pevent Z) := [PRegister pl2; PHandle; PHandle].
Definition run_once : list (pevent Z) :=
  two_plugins ++ [PEv EvStart; PEv (EvEnqueue (demo_job "a" 1) new_re_run); PEv EvTick; PEv (EvTask 0 (demo_ok 2))]
  ++ answer 3 ++ [PEv (EvTask 0 (demo_ok 2)); PEv (EvTask 0 (demo_ok 2))]
  ++ answer 1 ++ [PEv (EvTask 0 (demo_ok 2))] ++ answer 1.

(** Both plugins, before the user code of "a". *)
Example C43_case :
  let tr := p_trace (demo_pafter (PRegister pl1 :: run_once)) in
  ∃ pre suf, tr = pre ++ OStart 4 "a" :: suf ∧
    about 4 pre = [OSend 4 (7%nat, RunHook "a" true); OHandle 4 7 [pl1; pl2]; OCall 4 pl1 (CallBefore "a");
                   OCall 4 pl2 (CallBefore "a"); OEnd 4 false].
Proof.
  exists (take 17 (p_trace (demo_pafter (PRegister pl1 :: run_once)))),
         (drop 18 (p_trace (demo_pafter (PRegister pl1 :: run_once)))).
  split; by vm_compute.
Qed.
(** A task that waits for its hooks does not start. *)
Example C43_case_wait :
  let es := [PEv EvStart; PEv (EvEnqueue (demo_job "a" 1) new_re_run); PEv EvTick; PEv (EvTask 0 (demo_ok 2));
             PEv (EvTask 0 (demo_ok 2))] in
  runs (p_sys (demo_pafter (PRegister pl1 :: two_plugins ++ es))) = [] ∧
  map t_phase (tasks (p_sys (demo_pafter (PRegister pl1 :: two_plugins ++ es)))) = [Hooked].
Proof. split; by vm_compute. Qed.
(** The calls of the two plugins in this execution: before_run twice, after_run never. *)
Example C43_case_calls :
  let tr := p_trace (demo_pafter (PRegister pl1 :: run_once)) in
  map snd (calls_of pl1 tr) =
    [CallStatus "a" Queued; CallStatus "a" Running; CallBefore "a"; CallBefore "a"; CallStatus "a" Finished] ∧
  Forall (λ e : pevent Z, no_after_message e) (PRegister pl1 :: run_once).
Proof. split; [by vm_compute|]. unfold run_once. cbn. repeat constructor. Qed.
Definition once : list (event Z) := [EvEnqueue (demo_job "a" 1) new_re_run; EvTick] ++ demo_polls 0 (demo_ok 2).
Example C43_case_twice :
  hooks "a" (log (sw (demo_after (EvStart :: once)))) = [true; true] ∧
  alive (demo_after (EvStart :: once)) = true ∧ tasks (demo_after (EvStart :: once)) = [] ∧
  length (runs_of "a" (demo_after (EvStart :: once))) = 1%nat ∧ Forall calm once.
Proof.
  split; [by vm_compute|]. split; [by vm_compute|]. split; [by vm_compute|]. split; [by vm_compute|].
  unfold once, demo_polls. cbn. repeat constructor.
Qed.

(** C44: a retried job; the statuses it goes through. *)
Definition retried : list (event Z) :=
  EvStart :: once ++ [EvRetry "a"; EvCancel "a"; EvEnqueue (demo_job "b" 1) new_re_run].
Example C44_case :
  ok_hist Debug demo_sched "q" demo_clock (sys_init world_empty) retried ∧
  (∀ e, e ∈ retried → ¬ overwrites_only e) ∧
  notes "a" (log (sw (demo_after retried))) = [Queued; Running; Finished; Queued; Canceled] ∧
  status_path Debug demo_sched "q" demo_clock "a" (sys_init world_empty) retried =
    [Queued; Running; Finished; Queued; Canceled].
Proof.
  split. { apply plain_ok. unfold retried, once, demo_polls. cbn. repeat constructor. }
  split. { intros e He. unfold retried, once, demo_polls in He. cbn in He. rewrite !elem_of_cons, elem_of_nil in He. naive_solver. }
  split; by vm_compute.
Qed.
Example C44_case_first :
  let tr := p_trace (demo_pafter (PRegister pl1 :: run_once)) in
  Forall (λ e : pevent Z, one_process e ∧ one_queue e ∧ e ≠ PRegister pl1) run_once ∧
  map fst (sends tr) = [2; 3; 4; 5; 6]%nat ∧
  omap (λ o, match o with OEnd n false => Some n | _ => None end) tr = [2; 3; 4; 5; 6]%nat ∧
  reported "a" (calls_of pl1 tr) = [Queued; Running; Finished].
Proof.
  split. { unfold run_once. cbn. repeat (constructor; [by repeat split|]). constructor. }
  split; [by vm_compute|]. split; by vm_compute.
Qed.
Example C44_case_write :
  let s := sys_run Debug demo_sched "q" (traced (mem_h demo_clock)) (sys_init (world_empty, [])) (EvStart :: once) in
  ∃ pre suf v, (sw s).2 = pre ++ AUpsert "a" v true :: ASend (ChangeStatus "a" Queued) :: suf.
Proof.
  pose (l := (sw (sys_run Debug demo_sched "q" (traced (mem_h demo_clock)) (sys_init (world_empty, [])) (EvStart :: once))).2).
  exists (take 6 l), (drop 8 l), (match l !! 6%nat with Some (AUpsert _ v _) => v | _ => None end). by vm_compute.
Qed.

(** C44 is false: new_skip_if_finished on a finished job makes its status Queued again, with no
    notification. *)
Theorem C44_every_change_notified_refuted :
  let es := EvStart :: once in
  let es' := es ++ [EvEnqueue (demo_job "a" 5) new_skip_if_finished] in
  status_of (demo_after es) "a" = Some Finished ∧ status_of (demo_after es') "a" = Some Queued ∧
  notes "a" (log (sw (demo_after es'))) = [Queued; Running; Finished] ∧
  log (sw (demo_after es')) = log (sw (demo_after es)).
Proof. split; [by vm_compute|]. split; [by vm_compute|]. split; by vm_compute. Qed.

(** C44 is false for plugins other than the first: plugin 2 hears of Running before Queued. *)
Theorem C44_order_refuted :
  let es := PRegister pl1 :: two_plugins ++
    [PEv EvStart; PEv (EvEnqueue (demo_job "a" 1) new_re_run); PEv EvTick; PHandle; PHandle;
     PPoll 0 true; PPoll 1 true; PPoll 1 true; PPoll 0 true] in
  reported "a" (calls_of pl1 (p_trace (demo_pafter es))) = [Queued; Running] ∧
  reported "a" (calls_of pl2 (p_trace (demo_pafter es))) = [Running; Queued].
Proof. split; by vm_compute. Qed.

Print Assumptions C43_before_run.
Print Assumptions C43_own_message.
Print Assumptions C43_messages.
Print Assumptions C43_after_run_refuted.
Print Assumptions C43_exactly_once_refuted.
Print Assumptions C44_notify_after_write.
Print Assumptions C44_notes_are_status_path.
Print Assumptions C44_first_plugin.
Print Assumptions C44_first_plugin_calls.
Print Assumptions C44_first_plugin_order.
Print Assumptions C44_messages_of_queue.
Print Assumptions C44_every_change_notified_refuted.
Print Assumptions C44_order_refuted.
