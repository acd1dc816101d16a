(** Progress whatever the storage holds: after outages, crashes in the middle of a step, or foreign content. *)
From Verif Require Import SpecAny AnyFacts HistFacts Demo.
Open Scope Z_scope.

Section theorems.
  Context {M : Type} `{SM : Serde M} {SO : SerdeOk M}.
  Context (prof : profile).
  Context (sched : string → option (time → option time)).
  Context (name : string).
  Context (clock : nat → time).
  Notation moment := (a_moment prof sched name clock).
  Notation stored := (@stored M SM).
  Notation qlist := (qlist name).

  (** C109.  [s0] is any sound state: the lists may hold repeated ids, ids without a record, ids that nobody
      executes.  [ev] is any endless execution from there in which the queue stays alive, the limit stays above
      the number of entries lost at the beginning, the timer fires again and again and tasks are polled again and
      again.  A waiting id with a record and without a task, that is due for good from some clock reading on and
      neither submitted, retried nor cancelled, is executed, if only finitely many ids arrive. *)
  Theorem C109_progress (s0 : sys world M) (ev : nat → event M) n0 id j B :
    sound s0 → a_healthy prof sched name clock s0 ev → ticking ev → a_polling prof sched name clock s0 ev →
    a_waits name (moment s0 ev n0) id j →
    (∀ n, (n0 <= n)%nat → ¬ revives id (ev n) ∧ ev n ≠ EvCancel id) →
    (∃ k0, ∀ k, (k0 <= k)%nat → due j (clock k)) →
    (∀ d, (arrivals prof sched name clock (moment s0 ev n0) (map ev (seq n0 d)) <= B)%nat) →
    ∃ n1, (n0 <= n1)%nat ∧ (length (runs_of id (moment s0 ev n0)) < length (runs_of id (moment s0 ev n1)))%nat.
  Proof. intros H1 H2 H3 H4 H5 H6. exact (a_progress prof sched name clock s0 ev H1 H2 H3 H4 n0 id j H5 H6 B). Qed.

  (** A tick finds a free slot again and again: the lost entries do not become more. *)
  Theorem C109_slots (s0 : sys world M) (ev : nat → event M) n :
    sound s0 → a_healthy prof sched name clock s0 ev → ticking ev → a_polling prof sched name clock s0 ev →
    (length (a_lost name (moment s0 ev n)) <= length (a_lost name s0))%nat ∧
    ∃ m, (n <= m)%nat ∧ ev m = EvTick ∧ (0 < free_slots name (moment s0 ev m))%nat.
  Proof.
    intros H1 H2 H3 H4. split; [by apply (a_inv prof sched name clock s0 ev H1 H2 n)|].
    exact (a_opens_again prof sched name clock s0 ev H1 H2 H3 H4 n).
  Qed.

  (** Such states are what a history leaves behind, whatever calls of the backend failed on the way, and
      wherever the process was killed in the middle of a step. *)
  Theorem C109_after_outage (faults : nat → fault) (es : list (event M)) :
    alive (fafter prof sched name clock faults es) = true → sound (survivor (fafter prof sched name clock faults es)).
  Proof. exact (outage prof sched name clock faults es). Qed.

  (** And so is what a new process makes of the storage it finds; it loses no more entries than the list of
      picked jobs holds. *)
  Theorem C109_restart (s : sys world M) :
    alive s = false → (∀ id j, stored (sw s) id = Some j → jid j = id) →
    Z.of_nat (length (qlist (sw s) Queued)) <= i32_max →
    let s' := (sys_step prof sched name (mem_h clock) s EvStart).1 in
    sound s' ∧ (length (a_lost name s') <= length (qlist (sw s) Running))%nat.
  Proof. exact (restart prof sched name clock s). Qed.
End theorems.
Print Assumptions C109_progress.
Print Assumptions C109_slots.
Print Assumptions C109_after_outage.
Print Assumptions C109_restart.

(** *** Examples *)
(** The process was killed after "b" had been picked; then the record of "a" could not be written, and "a" was
    submitted again. *)
Definition bad_day : list (event Z) :=
  [EvStart; EvEnqueue (demo_job "b" 1) new_re_run; EvCrashIn EvTick 11; EvStart;
   EvEnqueue (demo_job "a" 1) new_re_run; EvEnqueue (demo_job "a" 1) new_re_run].
Definition one_fault (n : nat) : fault := if Nat.eqb n 17 then FBefore else FOk.
Definition remains : sys world Z := survivor (fafter (M := Z) Release demo_sched "q" demo_clock one_fault bad_day).
Definition back_again (n : nat) : event Z := if Nat.even n then EvTick else EvTask 0 (demo_ok 1).
Notation m_at n := (a_moment Release demo_sched "q" demo_clock remains back_again n).

Example ex_C109_left : qlist "q" (sw remains) Queued = ["a"; "a"] ∧ qlist "q" (sw remains) Running = ["b"] ∧
  tasks remains = [] ∧ a_lost "q" remains = ["b"].
Proof. by vm_compute. Qed.
Example ex_C109_sound : sound remains.
Proof. apply C109_after_outage. by vm_compute. Qed.

(** After 24 steps nothing happens any more. *)
Lemma rest_step e : e = EvTick ∨ e = EvTask 0 (demo_ok 1) →
  (sys_step Release demo_sched "q" (mem_h demo_clock) (m_at 24) e).1 = m_at 24.
Proof. intros [-> | ->]; [apply tick_nothing|apply poll_nothing]; by vm_compute. Qed.
Lemma at_rest n : m_at (24 + n)%nat = m_at 24.
Proof.
  induction n as [|n IH]; [by rewrite Nat.add_0_r|].
  rewrite Nat.add_succ_r, (a_S Release demo_sched "q" demo_clock remains back_again (24 + n)), IH.
  apply rest_step. unfold back_again. destruct (Nat.even (24 + n)); auto.
Qed.
Definition fine (s : sys world Z) : bool :=
  alive s && (1 <? max_processing_jobs (cfg s))%nat && (Z.of_nat (length (qlist "q" (sw s) Queued)) <=? i32_max).
Lemma first_24 (f : nat → bool) : forallb f (seq 0 24) = true → ∀ k, k ∈ seq 0 24 → f k = true.
Proof. intros H k Hk. rewrite forallb_forall in H. by apply H, elem_of_list_In. Qed.
Lemma all_fine n : fine (m_at n) = true.
Proof.
  destruct (decide (24 <= n)%nat) as [H|H].
  - replace n with (24 + (n - 24))%nat by lia. rewrite at_rest. by vm_compute.
  - assert (∀ k, k ∈ seq 0 24 → fine (m_at k) = true) as Hk.
    { apply (first_24 (λ k, fine (m_at k))). by vm_compute. }
    apply Hk, elem_of_seq. lia.
Qed.
Local Instance tz_dec : EqDecision (task Z).
Proof.
  assert (EqDecision strategy) by solve_decision. assert (EqDecision retry) by solve_decision.
  assert (EqDecision cron_context) by solve_decision. assert (EqDecision job_type) by solve_decision.
  assert (EqDecision context) by solve_decision. assert (EqDecision (job Z)) by solve_decision.
  solve_decision.
Defined.
Definition poll_ahead (n : nat) (t : task Z) : bool :=
  existsb (λ d, negb (Nat.even (n + d)) && bool_decide (tasks (m_at (n + d)) !! 0%nat = Some t)) (seq 0 24).
Lemma all_polled n t : t ∈ tasks (m_at n) → poll_ahead n t = true.
Proof.
  destruct (decide (24 <= n)%nat) as [H|H].
  - replace n with (24 + (n - 24))%nat by lia. rewrite at_rest.
    assert (tasks (m_at 24) = []) as -> by (by vm_compute). by intros ?%elem_of_nil.
  - assert (∀ k, k ∈ seq 0 24 → forallb (poll_ahead k) (tasks (m_at k)) = true) as Hk.
    { apply (first_24 (λ k, forallb (poll_ahead k) (tasks (m_at k)))). by vm_compute. }
    intros Ht. specialize (Hk n ltac:(apply elem_of_seq; lia)). rewrite forallb_forall in Hk.
    by apply Hk, elem_of_list_In.
Qed.
Example ex_C109_healthy : a_healthy Release demo_sched "q" demo_clock remains back_again.
Proof.
  intros n. pose proof (all_fine n) as H. unfold fine in H.
  apply andb_true_iff in H as [H H3]. apply andb_true_iff in H as [H1 H2].
  split; [unfold back_again; by destruct (Nat.even n)|]. split; [done|].
  split; [|by apply Z.leb_le]. assert (length (a_lost "q" remains) = 1%nat) as -> by (by vm_compute).
  by apply Nat.ltb_lt.
Qed.
Example ex_C109_ticking : ticking back_again.
Proof.
  intros n. exists (2 * n)%nat. split; [lia|]. unfold back_again. by rewrite Nat.even_mul.
Qed.
Example ex_C109_polling : a_polling Release demo_sched "q" demo_clock remains back_again.
Proof.
  intros n t Ht. pose proof (all_polled n t Ht) as H. apply existsb_exists in H as (d & _ & H).
  apply andb_true_iff in H as [H1 H2]. exists (n + d)%nat, 0%nat, (demo_ok 1). split; [lia|].
  split; [unfold back_again; by destruct (Nat.even (n + d))|]. by apply bool_decide_eq_true_1 in H2.
Qed.
Example ex_C109 : ∃ n1, (1 <= length (runs_of "a" (m_at n1)))%nat.
Proof.
  assert (∃ j, a_waits "q" (m_at 0) "a" j ∧ jtype (ctx j) = Normal) as (j & Hw & Hn).
  { assert (∃ j, stored (M := Z) (sw (m_at 0)) "a" = Some j ∧ jtype (ctx j) = Normal) as (j & Hs & Hj).
    { vm_compute. eexists. split; reflexivity. }
    exists j. split; [|done]. split; [|split; [done|]]; vm_compute; [left|]. by intros ?%elem_of_nil. }
  destruct (C109_progress Release demo_sched "q" demo_clock remains back_again 0 "a" j 2) as (n1 & _ & H).
  - apply ex_C109_sound.
  - apply ex_C109_healthy.
  - apply ex_C109_ticking.
  - apply ex_C109_polling.
  - done.
  - intros n _. unfold back_again. destruct (Nat.even n); (split; [by intros H|done]).
  - exists 0%nat. intros k _. unfold due. by rewrite Hn.
  - intros d. 
    assert (∀ m, (arrivals Release demo_sched "q" demo_clock (m_at m) (map back_again (seq m d)) <= 2 - 2)%nat) as H; [|specialize (H 0%nat); lia].
    induction d as [|d IH]; intros m; [cbn; lia|]. cbn [seq map Spec.arrivals]. rewrite <-a_S.
    specialize (IH (S m)).
    assert (length (qlist "q" (sw (m_at (S m))) Queued) <= length (qlist "q" (sw (m_at m)) Queued))%nat; [|lia].
    destruct (decide (24 <= m)%nat) as [Hm|Hm].
    + assert (∀ k, (24 <= k)%nat → m_at k = m_at 24) as E.
      { intros k Hk. rewrite <-(at_rest (k - 24)). f_equal. lia. }
      rewrite (E (S m)), (E m) by lia. apply le_n.
    + assert (∀ k, k ∈ seq 0 24 → (length (qlist "q" (sw (m_at (S k))) Queued) <=? length (qlist "q" (sw (m_at k)) Queued))%nat = true) as Hk.
      { apply (first_24 (λ k, (length (qlist "q" (sw (m_at (S k))) Queued) <=? length (qlist "q" (sw (m_at k)) Queued))%nat)). by vm_compute. }
      apply Nat.leb_le, Hk, elem_of_seq. lia.
  - exists n1. lia.
Qed.
(** "a" was in the list twice, and is executed twice; "b" stays where it is. *)
Example ex_C109_end : length (runs_of "a" (m_at 24)) = 2%nat ∧ qlist "q" (sw (m_at 24)) Running = ["b"].
Proof. by vm_compute. Qed.
Example ex_C109_restart : let s := sys_run Release demo_sched "q" (mem_h demo_clock) initial (take 3 bad_day) in
  alive s = false ∧ qlist "q" (sw s) Running = ["b"] ∧
  a_lost "q" (sys_step Release demo_sched "q" (mem_h demo_clock) s EvStart).1 = ["b"].
Proof. by vm_compute. Qed.
