(** Endless executions: every waiting job is executed. *)
From Verif Require Import SpecLive HistFacts ApiFacts StarveFacts LiveFacts Demo.

Section theorems.
  Context {M : Type} `{SM : Serde M} {SO : SerdeOk M}.
  Context (prof : profile).
  Context (sched : string → option (time → option time)).
  Context (name : string).
  Context (clock : nat → time).
  Notation moment := (moment prof sched name clock).
  Notation qlist := (qlist name).
  Notation stored := (@stored M SM).

  (** C69.  [ev] is any endless execution in which the queue stays alive, the timer fires again and
      again and tasks are polled again and again.  A waiting job that is due from some reading of the
      clock on, and is neither submitted again nor cancelled, is executed, and its execution ends; as
      long as the number of waiting ids and arrivals after [n0] is bounded. *)
  Theorem C69_fair_progress (ev : nat → event M) n0 id j B :
    healthy prof sched name clock ev → ticking ev → polling prof sched name clock ev →
    id ∈ qlist (sw (moment ev n0)) Queued → stored (sw (moment ev n0)) id = Some j →
    (∃ k0, ∀ k, (k0 <= k)%nat → due j (clock k)) →
    (∀ n, (n0 <= n)%nat → ¬ submits id (ev n) ∧ ev n ≠ EvCancel id) →
    Z.of_nat B <= i32_max →
    (∀ d, (length (qlist (sw (moment ev n0)) Queued) +
           arrivals prof sched name clock (moment ev n0) (map ev (seq n0 d)) <= B)%nat) →
    ∃ n1 n2, (n0 <= n1 <= n2)%nat ∧
      (length (runs_of id (moment ev n0)) < length (runs_of id (moment ev n1)))%nat ∧
      tasks_of id (moment ev n2) = [].
  Proof. intros H1 H2 H3. exact (fair_progress_later prof sched name clock ev H1 H2 H3 n0 id j B). Qed.

  (** The slots: in such an execution ticks find a free slot again and again. *)
  Theorem C69_slots_free_again (ev : nat → event M) n :
    healthy prof sched name clock ev → ticking ev → polling prof sched name clock ev →
    ∃ m, (n <= m)%nat ∧ ev m = EvTick ∧ (0 < free_slots name (moment ev m))%nat.
  Proof. intros H1 H2 H3. exact (opens_again prof sched name clock ev H1 H2 H3 n). Qed.

  (** Every task ends. *)
  Theorem C69_tasks_end (ev : nat → event M) n t :
    healthy prof sched name clock ev → polling prof sched name clock ev →
    t ∈ tasks (moment ev n) → ∃ m, (n <= m)%nat ∧ tasks_of (tid t) (moment ev m) = [].
  Proof. intros H1 H3. exact (completes prof sched name clock ev H1 H3 n t). Qed.
End theorems.

(** "a" is submitted for the 3rd millisecond, then the timer and the polls alternate for ever. *)
Definition late_a : job Z := set_ctx (demo_job "a" 1) (set_jtype (ctx (demo_job "a" 1)) (ScheduledAt 3000000)).
Definition endless (n : nat) : event Z :=
  match n with
  | O => EvEnqueue late_a new_re_run
  | S n => if Nat.even n then EvTick else EvTask 0 (demo_ok 1)
  end.
Notation at_moment := (moment (M := Z) Debug demo_sched "q" demo_clock endless).

(** From the 15th event on nothing happens. *)
Lemma endless_ok n : ok_hist Debug demo_sched "q" demo_clock initial (EvStart :: map endless (seq 0 n)).
Proof.
  apply plain_ok. constructor; [done|]. apply list.Forall_forall. intros e He.
  apply elem_of_list_fmap in He as (k & -> & _). destruct k as [|k]; [done|]. cbn. by destruct (Nat.even k).
Qed.
Lemma endless_idle n : (15 <= n)%nat → idle "q" 20 (at_moment n).
Proof.
  intros Hn. replace n with (15 + (n - 15))%nat by lia. induction (n - 15)%nat as [|d IH].
  - split; [by vm_compute|]. split; [by vm_compute|]. split; by vm_compute.
  - rewrite Nat.add_succ_r, (s_S Debug demo_sched "q" demo_clock). apply idle_step; [|exact IH|].
    + apply all_at_after, endless_ok.
    + cbn. destruct (Nat.even _); eauto.
Qed.
Lemma endless_begin :
  forallb (λ n, alive (at_moment n) && Nat.eqb (max_processing_jobs (cfg (at_moment n))) 20 &&
    forallb (λ t : task Z, String.eqb (tid t) "a") (tasks (at_moment n)) &&
    Nat.eqb (arrivals Debug demo_sched "q" demo_clock (at_moment 1) (map endless (seq 1 n))) 0) (seq 0 16) = true ∧
  endless 14 = EvTask 0 (demo_ok 1) ∧ (tid <$> tasks (at_moment 14) !! 0%nat) = Some "a".
Proof. by vm_compute. Qed.
Lemma endless_early n : (n < 15)%nat →
  alive (at_moment n) = true ∧ max_processing_jobs (cfg (at_moment n)) = 20%nat ∧
  (∀ t, t ∈ tasks (at_moment n) → tid t = "a").
Proof.
  intros Hn. destruct endless_begin as [H _]. rewrite forallb_forall in H.
  specialize (H n). rewrite <-elem_of_list_In, elem_of_seq in H. specialize (H ltac:(lia)).
  apply andb_true_iff in H as [H _]. apply andb_true_iff in H as [H H3]. apply andb_true_iff in H as [H1 H2].
  split; [done|]. split; [by apply Nat.eqb_eq|]. intros t Ht. rewrite forallb_forall in H3.
  apply String.eqb_eq, H3. by apply elem_of_list_In.
Qed.
Example C69_healthy : healthy Debug demo_sched "q" demo_clock endless.
Proof.
  intros n. split; [destruct n as [|n]; [done|]; cbn; by destruct (Nat.even n)|].
  split; [|split; [|apply endless_ok]].
  all: destruct (decide (n < 15)%nat) as [Hn|Hn];
    [destruct (endless_early n Hn) as (H1&H2&_)|destruct (endless_idle n ltac:(lia)) as (H1&_&H2&_)].
  all: rewrite ?H2; done || lia.
Qed.
Example C69_ticking : ticking endless.
Proof.
  intros n. exists (S (2 * n))%nat. split; [lia|]. cbn [endless]. by rewrite Nat.even_mul.
Qed.
Example C69_polling : polling Debug demo_sched "q" demo_clock endless.
Proof.
  intros n t Ht. destruct (decide (n < 15)%nat) as [Hn|Hn].
  - destruct (endless_early n Hn) as (_&_&H). destruct endless_begin as (_ & He & Hl).
    destruct (tasks (at_moment 14) !! 0%nat) as [t'|] eqn:El; [|done]. injection Hl as Hl.
    exists 14%nat, 0%nat, (demo_ok 1), t'. split; [lia|]. split; [done|]. split; [done|]. rewrite Hl. symmetry. by apply H.
  - destruct (endless_idle n ltac:(lia)) as (_&E&_). rewrite E in Ht. by apply elem_of_nil in Ht.
Qed.
Lemma endless_arrivals d : arrivals Debug demo_sched "q" demo_clock (at_moment 1) (map endless (seq 1 d)) = 0%nat.
Proof.
  destruct (decide (d < 16)%nat) as [Hd|Hd].
  - destruct endless_begin as [H _]. rewrite forallb_forall in H.
    specialize (H d). rewrite <-elem_of_list_In, elem_of_seq in H. specialize (H ltac:(lia)).
    apply andb_true_iff in H as [_ H]. by apply Nat.eqb_eq.
  - replace d with (15 + (d - 15))%nat by lia. rewrite seq_app, map_app, (arrivals_app Debug demo_sched "q" demo_clock).
    rewrite <-(s_add Debug demo_sched "q" demo_clock endless 1 15).
    destruct endless_begin as [H _]. rewrite forallb_forall in H.
    specialize (H 15%nat). rewrite <-elem_of_list_In, elem_of_seq in H. specialize (H ltac:(lia)).
    apply andb_true_iff in H as [_ H]. apply Nat.eqb_eq in H. rewrite H, Nat.add_0_l. clear H.
    generalize (d - 15)%nat. intros m. assert (15 <= 1 + 15)%nat as Hk by lia. revert Hk.
    generalize (1 + 15)%nat. induction m as [|m IH]; intros k Hk; [done|]. cbn [seq map arrivals].
    rewrite <-(s_S Debug demo_sched "q" demo_clock). rewrite IH by lia.
    destruct (endless_idle k Hk) as (_&_&_&E1). destruct (endless_idle (S k) ltac:(lia)) as (_&_&_&E2).
    unfold demo_after in *. rewrite E1, E2. done.
Qed.
Example C69_case :
  (∃ j, stored (M := Z) (sw (at_moment 1)) "a" = Some j ∧ ∃ k0, ∀ k, (k0 <= k)%nat → due j (demo_clock k)) ∧
  qlist "q" (sw (at_moment 1)) Queued = ["a"] ∧ runs (at_moment 1) = [] ∧
  (∀ n, (1 <= n)%nat → ¬ submits "a" (endless n) ∧ endless n ≠ EvCancel "a") ∧
  ∀ d, (length (qlist "q" (sw (at_moment 1)) Queued) +
        arrivals Debug demo_sched "q" demo_clock (at_moment 1) (map endless (seq 1 d)) <= 1)%nat.
Proof.
  split; [|split; [by vm_compute|split; [by vm_compute|split]]].
  - eexists. split; [by vm_compute|]. exists 4%nat. intros k Hk. unfold due, demo_clock. cbn. lia.
  - intros n Hn. destruct n as [|n]; [lia|]. cbn [endless]. destruct (Nat.even n); (split; [by intros H|done]).
  - intros d. rewrite endless_arrivals. apply Nat.leb_le. by vm_compute.
Qed.
(** The execution it predicts. *)
Example C69_case_executed : map jid (runs (at_moment 11)) = ["a"] ∧ tasks (at_moment 15) = [].
Proof. by vm_compute. Qed.

Print Assumptions C69_fair_progress.
Print Assumptions C69_slots_free_again.
Print Assumptions C69_tasks_end.
