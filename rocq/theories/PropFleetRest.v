(** A fleet that gets no more work comes to rest. *)
From Verif Require Import SpecFleetRest LifeFacts LiveFacts WorkersFacts FleetFair FleetRest PropFleetFair Demo.
Open Scope Z_scope.

Section theorems.
  Context {M : Type} `{SM : Serde M} {SO : SerdeOk M}.
  Context (prof : nat → profile).
  Context (sched : nat → string → option (time → option time)).
  Context (name : string).
  Context (clock : nat → nat → time).
  Notation moment := (f_moment prof sched name clock).
  Notation qlist := (qlist name).
  Notation stored := (@stored M SM).
  Notation to_do := (to_do name).

  (** C118.  [ev] is any endless execution of [N] processes as in C107, and from [n0] on nothing is submitted,
      retried by hand or cancelled.  If the jobs that wait or are being executed at [n0] are no cron jobs and
      have limits on their tries, and waiting jobs come due, then there is a moment from which on nothing
      waits, no process has a task, nothing is executed any more, all these jobs are finished or failed, and
      the processing list has exactly the ids that dead processes had left in it at [n0]; no other record has
      changed. *)
  Theorem C118_rest N (ev : nat → nat * event M) n0 :
    f_healthy prof sched name clock N ev n0 → f_ticking prof sched name clock N ev → f_polling prof sched name clock N ev n0 →
    (∀ n, (n0 <= n)%nat → f_no_new_work (ev n).2) →
    (∀ id j, id ∈ to_do (moment N ev n0) → stored (f_world (moment N ev n0)) id = Some j → ends_some_day j) →
    (∀ n id j, (n0 <= n)%nat → id ∈ qlist (f_world (moment N ev n)) Queued → stored (f_world (moment N ev n)) id = Some j →
       ∃ k0, ∀ i k, (k0 <= k)%nat → due j (clock i k)) →
    Z.of_nat (f_work_left name (moment N ev n0)) <= i32_max →
    ∃ n1, (n0 <= n1)%nat ∧ ∀ n, (n1 <= n)%nat →
      qlist (f_world (moment N ev n)) Queued = [] ∧ all_tasks (moment N ev n) = [] ∧
      qlist (f_world (moment N ev n)) Running ≡ₚ lost name (moment N ev n0) ∧
      f_runs (moment N ev n) = f_runs (moment N ev n1) ∧
      (∀ id, id ∈ to_do (moment N ev n0) →
         f_status_of (moment N ev n) id = Some Finished ∨ f_status_of (moment N ev n) id = Some Failed) ∧
      (∀ id, id ∉ to_do (moment N ev n0) → stored (f_world (moment N ev n)) id = stored (f_world (moment N ev n0)) id).
  Proof. exact (R_rests prof sched name clock N ev n0). Qed.

  (** Waiting jobs come due if all clocks pass every time. *)
  Theorem C118_come_due N (ev : nat → nat * event M) n0 :
    f_healthy prof sched name clock N ev n0 → (∀ n, (n0 <= n)%nat → f_no_new_work (ev n).2) →
    (∀ id j, id ∈ to_do (moment N ev n0) → stored (f_world (moment N ev n0)) id = Some j → ends_some_day j) →
    (∀ t, ∃ k0, ∀ i k, (k0 <= k)%nat → t < clock i k) →
    ∀ n id j, (n0 <= n)%nat → id ∈ qlist (f_world (moment N ev n)) Queued → stored (f_world (moment N ev n)) id = Some j →
      ∃ k0, ∀ i k, (k0 <= k)%nat → due j (clock i k).
  Proof. exact (R_come_due prof sched name clock N ev n0). Qed.

  (** On the way each of the jobs is executed, by all processes together, no more often than once and for each
      of its tries left, and no other job at all.  Fairness is not needed. *)
  Theorem C118_executions N (ev : nat → nat * event M) n0 n id :
    f_healthy prof sched name clock N ev n0 → (∀ n, (n0 <= n)%nat → f_no_new_work (ev n).2) →
    (∀ id j, id ∈ to_do (moment N ev n0) → stored (f_world (moment N ev n0)) id = Some j → ends_some_day j) →
    (n0 <= n)%nat →
    (length (f_runs_of id (moment N ev n)) <= length (f_runs_of id (moment N ev n0)) +
       if decide (id ∈ to_do (moment N ev n0)) then f_executions_left (moment N ev n0) id else 0)%nat.
  Proof. intros H1 H2 H3. exact (R_few prof sched name clock N ev n0 H1 H2 H3 n id). Qed.
End theorems.
Print Assumptions C118_rest.
Print Assumptions C118_come_due.
Print Assumptions C118_executions.

(** *** Example *)
(** The execution of C107: process 0 has died with "a"; "b" waits for its time; process 0 starts again. *)
Lemma two_healthy_7 : f_healthy (λ _, Debug) (λ _, demo_sched) "q" two_clock 2 two 7.
Proof.
  destruct C107_healthy as (H1 & H2 & H3). split; [done|]. split; [intros n i Hn; apply H2; lia|].
  intros n i m Hn Em Hm. specialize (H3 n i m ltac:(lia) Em Hm).
  assert (length (lost "q" (at_two 7)) = 1%nat ∧ length (lost "q" (at_two 6)) = 1%nat) as [E1 E2] by (by vm_compute). lia.
Qed.
Lemma two_quiet n : (7 <= n)%nat → f_no_new_work (two n).2.
Proof.
  intros Hn. destruct (decide (n = 7%nat)) as [->|Hne]; [by right|]. left.
  destruct (two_kinds n ltac:(lia)) as (i & _ & [-> | ->]); done.
Qed.
Lemma two_ends id j : id ∈ to_do "q" (at_two 7) → stored (f_world (at_two 7)) id = Some j → ends_some_day j.
Proof.
  assert (to_do "q" (at_two 7) = ["b"]) as -> by (by vm_compute). intros ->%elem_of_list_singleton Hj.
  assert (jtype (ctx j) = ScheduledAt 60000000 ∧ jretry (ctx j) = None) as [E1 E2] by (revert Hj; vm_compute; by intros [= <-]).
  split; [intros; by rewrite E1|]. intros r. by rewrite E2.
Qed.
Lemma two_clock_goes_on t : ∃ k0, ∀ i k, (k0 <= k)%nat → t < two_clock i k.
Proof. exists (Z.to_nat (t + 1)). intros i k Hk. unfold two_clock, demo_clock. lia. Qed.
Example C118_case :
  ∃ n1, (7 <= n1)%nat ∧ ∀ n, (n1 <= n)%nat →
    qlist "q" (f_world (at_two n)) Queued = [] ∧ all_tasks (at_two n) = [] ∧
    qlist "q" (f_world (at_two n)) Running ≡ₚ lost "q" (at_two 7) ∧ f_runs (at_two n) = f_runs (at_two n1) ∧
    (∀ id, id ∈ to_do "q" (at_two 7) → f_status_of (at_two n) id = Some Finished ∨ f_status_of (at_two n) id = Some Failed) ∧
    (∀ id, id ∉ to_do "q" (at_two 7) → stored (M := Z) (f_world (at_two n)) id = stored (f_world (at_two 7)) id).
Proof.
  apply (C118_rest (λ _, Debug) (λ _, demo_sched) "q" two_clock 2 two 7).
  - exact two_healthy_7.
  - exact C107_ticking.
  - intros n i m t Hn. apply C107_polling. lia.
  - exact two_quiet.
  - exact two_ends.
  - exact (C118_come_due (λ _, Debug) (λ _, demo_sched) "q" two_clock 2 two 7 two_healthy_7 two_quiet two_ends two_clock_goes_on).
  - assert (f_work_left "q" (at_two 7) = 1%nat) as -> by (by vm_compute). done.
Qed.
Example C118_case_left : lost "q" (at_two 7) = ["a"] ∧ to_do "q" (at_two 7) = ["b"] ∧ f_executions_left (at_two 7) "b" = 1%nat.
Proof. by vm_compute. Qed.
