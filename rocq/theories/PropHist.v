(** Properties of whole histories: life cycle of an id, limits, lists. *)
From Verif Require Import Spec HistFacts SubmitFacts LifeProps ListFacts ApiFacts Demo.

Section theorems.
  Context {M : Type} `{SM : Serde M} {SO : SerdeOk M}.
  Context (prof : profile).
  Context (sched : string → option (time → option time)).
  Context (name : string).
  Context (clock : nat → time).
  Notation after := (after prof sched name clock).
  Notation ok_hist := (ok_hist prof sched name clock).
  Notation qlist := (qlist name).
  Notation times_in := (times_in name).
  Notation stored := (@stored M SM).
  Implicit Types es : list (event M).

  (** Histories that need no look at the state are orderly. *)
  Theorem orderly_plain es : Forall plain_event es → ok_hist initial es.
  Proof. exact (plain_ok prof sched name clock initial es). Qed.

  (** C07. *)
  Theorem C07_one_pending_execution es id :
    ok_hist initial es →
    (times_in (after es) Queued id + times_in (after es) Running id <= 1)%nat.
  Proof. exact (pending_once prof sched name clock es id). Qed.

  (** C09, for orderly histories.  Missing: stale update_job snapshots and backend failures, for which
      it is false. *)
  Theorem C09_no_overlap_partial es :
    ok_hist initial es → NoDup (map tid (tasks (after es))).
  Proof. exact (no_overlap prof sched name clock es). Qed.

  (** C10. *)
  Theorem C10_limit es :
    ok_hist initial es →
    (length (tasks (after es)) <= length (qlist (sw (after es)) Running) ∧
     length (qlist (sw (after es)) Running) <= limit_of es)%nat.
  Proof. exact (limit_respected prof sched name clock es). Qed.

  (** C16. *)
  Theorem C16_legal_status_changes es e id :
    ok_hist initial (es ++ [e]) →
    status_of (after (es ++ [e])) id = status_of (after es) id ∨
    legal (status_of (after es) id) (status_of (after (es ++ [e])) id).
  Proof. exact (status_legal prof sched name clock es e id). Qed.

  (** C17.  [n] executions were started since the submission; all of them are completed, except the
      one that is in the user's code (or was there when the process died). *)
  Theorem C17_run_count es1 j ec es2 j' :
    let es := es1 ++ EvEnqueue j ec :: es2 in
    let n := (length (runs_of (jid j) (after es)) - length (runs_of (jid j) (after es1)))%nat in
    ok_hist initial es → alive (after es1) = true → run_count (ctx j) = 0%nat →
    stored (sw (after es1)) (jid j) = None ∨
      (∃ ex, stored (sw (after es1)) (jid j) = Some ex ∧ done_status (jstatus (ctx ex)) ∧
             re_run ec = true) →
    Forall (λ e, ¬ submits (jid j) e) es2 →
    stored (sw (after es)) (jid j) = Some j' →
    (jstatus (ctx j') ≠ Running → run_count (ctx j') = n) ∧
    (jstatus (ctx j') = Running → run_count (ctx j') = n ∨ S (run_count (ctx j')) = n) ∧
    (∀ t, t ∈ tasks (after es) → tid t = jid j →
       if decide (t_phase t = Spawned ∨ t_phase t = Hooked) then run_count (ctx j') = n
       else S (run_count (ctx j')) = n).
  Proof. exact (run_count_runs prof sched name clock es1 j ec es2 j'). Qed.

  (** C49, the true part.  Without submissions that overwrite only, the waiting and processing lists
      agree with the statuses ... *)
  Theorem C49_lists_agree_partial es id :
    ok_hist initial es → Forall (λ e, ¬ overwrites_only e) es →
    (id ∈ qlist (sw (after es)) Queued ↔ status_of (after es) id = Some Queued) ∧
    (id ∈ qlist (sw (after es)) Running ↔ status_of (after es) id = Some Running).
  Proof. exact (lists_agree prof sched name clock es id). Qed.
  (** ... and in every orderly history a Finished or Failed job is in its list, the waiting list
      contains Queued jobs only, and the Canceled list is never used. *)
  Theorem C49_lists_sound_partial es id :
    ok_hist initial es →
    (id ∈ qlist (sw (after es)) Queued → status_of (after es) id = Some Queued) ∧
    (id ∈ qlist (sw (after es)) Running ↔ status_of (after es) id = Some Running) ∧
    (status_of (after es) id = Some Finished → id ∈ qlist (sw (after es)) Finished) ∧
    (status_of (after es) id = Some Failed → id ∈ qlist (sw (after es)) Failed) ∧
    id ∉ qlist (sw (after es)) Canceled.
  Proof. exact (lists_sound prof sched name clock es id). Qed.
End theorems.

Notation dj := demo_job.

(** ** Refutations *)

(** C09: an update_job whose second half arrives late.  The snapshot is taken while "a" is Finished;
    before the update is submitted, "a" is run again.  A further run() then queues a second copy, and
    two tasks of "a" are in the user's code at the same time. *)
Definition c09_1 : list (event Z) :=
  [EvStart; EvEnqueue (dj "a" 1) new_re_run; EvTick] ++ demo_polls 0 (demo_ok 1).
Definition c09_2 : list (event Z) := [EvEnqueue (dj "a" 1) new_re_run].
Definition c09_3 : list (event Z) :=
  [EvEnqueue (dj "a" 1) new_re_run; EvTick; EvTick;
   EvTask 0 (demo_ok 1); EvTask 0 (demo_ok 1); EvTask 1 (demo_ok 1); EvTask 1 (demo_ok 1)].
Theorem C09_stale_update_refuted :
  ∃ e, update_second (stored (sw (demo_after c09_1)) "a") 7 None = Some e ∧
    Forall plain_event (c09_1 ++ c09_2 ++ c09_3) ∧
    map (λ t, (tid t, t_phase t)) (tasks (demo_after (c09_1 ++ c09_2 ++ [e] ++ c09_3))) =
      [("a", InUser); ("a", InUser)].
Proof.
  eexists. split; [by vm_compute|]. split; [repeat constructor|]. by vm_compute.
Qed.

(** C49: with new_skip_if_finished a job is stored as Queued but is in no list. *)
Definition c49_1 : list (event Z) :=
  [EvStart; EvEnqueue (dj "a" 1) new_re_run; EvTick] ++ demo_polls 0 (demo_ok 1).
Theorem C49_queued_but_not_waiting_refuted :
  let es := c49_1 ++ [EvEnqueue (dj "a" 1) new_skip_if_finished] in
  Forall plain_event es ∧ status_of (demo_after es) "a" = Some Queued ∧
  qlist "q" (sw (demo_after es)) Queued = [].
Proof. split; [repeat constructor|]. vm_compute; repeat split. Qed.
(** C49: an id stays in the Finished list when it is run again. *)
Theorem C49_finished_list_refuted :
  let es := c49_1 ++ [EvEnqueue (dj "a" 1) new_re_run] in
  Forall plain_event es ∧ status_of (demo_after es) "a" = Some Queued ∧
  qlist "q" (sw (demo_after es)) Finished = ["a"].
Proof. split; [repeat constructor|]. vm_compute; repeat split. Qed.

(** ** Concrete cases *)
Definition ph_1 : list (event Z) :=
  [EvStart; EvConfig (WqConfig 1 2); EvEnqueue (dj "a" 1) new_re_run; EvEnqueue (dj "b" 2) new_re_run;
   EvEnqueue (dj "a" 3) new_re_run; EvEnqueue (dj "c" 3) new_re_run; EvTick;
   EvEnqueue (dj "a" 4) new_re_run; EvTick].

Example C07_example :
  Forall plain_event ph_1 ∧ qlist "q" (sw (demo_after ph_1)) Queued = ["c"] ∧
  qlist "q" (sw (demo_after ph_1)) Running = ["b"; "a"].
Proof. split; [repeat constructor|]. vm_compute; repeat split. Qed.
Example C09_example : map tid (tasks (demo_after ph_1)) = ["a"; "b"].
Proof. by vm_compute. Qed.
Example C10_example : limit_of ph_1 = 20%nat ∧ length (tasks (demo_after ph_1)) = 2%nat.
Proof. by vm_compute. Qed.
Example C16_example :
  map (λ n, status_of (demo_after (take n (c49_1 ++ [EvRetry "a"; EvCancel "a"]))) "a") (seq 0 10) =
  [None; None; Some Queued; Some Running; Some Running; Some Running; Some Running; Some Finished;
   Some Queued; Some Canceled].
Proof. by vm_compute. Qed.
Example C17_example :
  let es2 := EvTick :: demo_polls 0 (demo_ok 1) ++ [EvRetry "a"; EvTick] ++ demo_polls 0 (demo_ok 2)
             ++ [EvRetry "a"; EvTick; EvTask 0 (demo_ok 3); EvTask 0 (demo_ok 3)] in
  let es := [EvStart] ++ EvEnqueue (dj "a" 1) new_re_run :: es2 in
  Forall plain_event es ∧ Forall (λ e, ¬ submits "a" e) es2 ∧
  length (runs_of "a" (demo_after es)) = 3%nat ∧
  (run_count ∘ ctx <$> stored (M := Z) (sw (demo_after es)) "a") = Some 2%nat.
Proof.
  split; [repeat constructor|]. split; [repeat constructor; intros []|]. vm_compute; repeat split.
Qed.
Example C49_example :
  Forall (λ e, ¬ overwrites_only e) ph_1 ∧ status_of (demo_after ph_1) "c" = Some Queued ∧
  status_of (demo_after ph_1) "a" = Some Running.
Proof. split; [repeat constructor; cbn; intuition congruence|]. vm_compute; repeat split. Qed.

Print Assumptions orderly_plain.
Print Assumptions C07_one_pending_execution.
Print Assumptions C09_no_overlap_partial.
Print Assumptions C10_limit.
Print Assumptions C16_legal_status_changes.
Print Assumptions C17_run_count.
Print Assumptions C49_lists_agree_partial.
Print Assumptions C49_lists_sound_partial.
Print Assumptions C09_stale_update_refuted.
Print Assumptions C49_queued_but_not_waiting_refuted.
Print Assumptions C49_finished_list_refuted.
