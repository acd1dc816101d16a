(** A queue that gets no more work comes to rest. *)
From Verif Require Import SpecDrain HistFacts ApiFacts StarveFacts LiveFacts DrainFacts Demo.
Open Scope Z_scope.

Section theorems.
  Context {M : Type} `{SM : Serde M} {SO : SerdeOk M}.
  Context (prof : profile).
  Context (sched : string → option (time → option time)).
  Context (name : string).
  Context (clock : nat → time).
  Notation moment := (moment prof sched name clock).
  Notation qlist := (qlist name).
  Notation stored := (@stored M SM).
  Notation pending := (pending name).

  (** C105.  [ev] is any endless execution in which the queue stays alive, the timer fires again and again and
      tasks are polled again and again; from [n0] on nothing is submitted, retried by hand or cancelled.  If
      the jobs that are pending at [n0] are no cron jobs and have limits on their tries, and waiting jobs
      come due, then there is a moment from which on nothing waits, nothing runs, nothing is executed any
      more, and all these jobs are finished or failed. *)
  Theorem C105_rest (ev : nat → event M) n0 :
    healthy prof sched name clock ev → ticking ev → polling prof sched name clock ev →
    (∀ n, (n0 <= n)%nat → no_new_work (ev n)) →
    (∀ id j, id ∈ pending (moment ev n0) → stored (sw (moment ev n0)) id = Some j → ends_some_day j) →
    (∀ n id j, (n0 <= n)%nat → id ∈ qlist (sw (moment ev n)) Queued → stored (sw (moment ev n)) id = Some j →
       ∃ k0, ∀ k, (k0 <= k)%nat → due j (clock k)) →
    Z.of_nat (work_left name (moment ev n0)) <= i32_max →
    ∃ n1, (n0 <= n1)%nat ∧ ∀ n, (n1 <= n)%nat →
      qlist (sw (moment ev n)) Queued = [] ∧ qlist (sw (moment ev n)) Running = [] ∧ tasks (moment ev n) = [] ∧
      runs (moment ev n) = runs (moment ev n1) ∧
      (∀ id, id ∈ pending (moment ev n0) →
         status_of (moment ev n) id = Some Finished ∨ status_of (moment ev n) id = Some Failed).
  Proof. intros H1 H2 H3. exact (drains prof sched name clock ev H1 H2 H3 n0). Qed.

  (** Waiting jobs come due if the clock passes every time. *)
  Theorem C105_come_due (ev : nat → event M) n0 :
    healthy prof sched name clock ev → (∀ n, (n0 <= n)%nat → no_new_work (ev n)) →
    (∀ id j, id ∈ pending (moment ev n0) → stored (sw (moment ev n0)) id = Some j → ends_some_day j) →
    (∀ t, ∃ k0, ∀ k, (k0 <= k)%nat → t < clock k) →
    ∀ n id j, (n0 <= n)%nat → id ∈ qlist (sw (moment ev n)) Queued → stored (sw (moment ev n)) id = Some j →
      ∃ k0, ∀ k, (k0 <= k)%nat → due j (clock k).
  Proof. exact (come_due prof sched name clock ev n0). Qed.

  (** On the way a pending job is executed no more often than once and for each of its tries left, and no
      other job at all.  Fairness is not needed. *)
  Theorem C105_executions (ev : nat → event M) n0 n id :
    healthy prof sched name clock ev →
    (∀ n, (n0 <= n)%nat → no_new_work (ev n)) →
    (∀ id j, id ∈ pending (moment ev n0) → stored (sw (moment ev n0)) id = Some j → ends_some_day j) →
    (n0 <= n)%nat →
    (length (runs_of id (moment ev n)) <= length (runs_of id (moment ev n0)) +
       if decide (id ∈ pending (moment ev n0)) then executions_left (moment ev n0) id else 0)%nat.
  Proof. intros H1 H2 H3. exact (few_runs prof sched name clock ev H1 n0 H2 H3 n id). Qed.
End theorems.
Print Assumptions C105_rest.
Print Assumptions C105_come_due.
Print Assumptions C105_executions.

(** *** Example *)
(** "a" may be tried twice more, "b" once; all executions fail; the timer and the polls alternate for ever. *)
Definition twice_a : job Z :=
  set_ctx (demo_job "a" 1) (set_jretry (ctx (demo_job "a" 1)) (Some (Retry 0 (Some 2) (Interval 3000)))).
Definition winding_down (n : nat) : event Z :=
  match n with
  | O => EvEnqueue twice_a new_re_run
  | S O => EvEnqueue (demo_job "b" 1) new_re_run
  | S (S n) => if Nat.even n then EvTick else EvTask 0 (demo_fail 1)
  end.
Notation at_moment := (moment (M := Z) Debug demo_sched "q" demo_clock winding_down).

(** From the 34th event on nothing happens. *)
Lemma down_ok n : ok_hist Debug demo_sched "q" demo_clock initial (EvStart :: map winding_down (seq 0 n)).
Proof.
  apply plain_ok. constructor; [done|]. apply list.Forall_forall. intros e He.
  apply elem_of_list_fmap in He as (k & -> & _). destruct k as [|[|k]]; [done..|]. cbn. by destruct (Nat.even k).
Qed.
Lemma down_idle n : (34 <= n)%nat → idle "q" 20 (at_moment n).
Proof.
  intros Hn. replace n with (34 + (n - 34))%nat by lia. induction (n - 34)%nat as [|d IH].
  - split; [by vm_compute|]. split; [by vm_compute|]. split; by vm_compute.
  - rewrite Nat.add_succ_r, (s_S Debug demo_sched "q" demo_clock). apply idle_step; [|exact IH|].
    + apply all_at_after, down_ok.
    + cbn. destruct (Nat.even _); eauto.
Qed.
(** Until then every task is polled once more. *)
Definition polled (n m : nat) (t : task Z) : bool :=
  Nat.leb n m && match winding_down m, tasks (at_moment m) with EvTask 0 _, t' :: _ => String.eqb (tid t') (tid t) | _, _ => false end.
Lemma down_begin :
  forallb (λ n, alive (at_moment n) && Nat.eqb (max_processing_jobs (cfg (at_moment n))) 20 &&
    forallb (λ t, existsb (λ m, polled n m t) (seq 0 34)) (tasks (at_moment n))) (seq 0 34) = true.
Proof. by vm_compute. Qed.
Lemma down_early n : (n < 34)%nat →
  alive (at_moment n) = true ∧ max_processing_jobs (cfg (at_moment n)) = 20%nat ∧
  (∀ t, t ∈ tasks (at_moment n) → ∃ m, polled n m t = true).
Proof.
  intros Hn. pose proof down_begin as H. rewrite forallb_forall in H.
  specialize (H n). rewrite <-elem_of_list_In, elem_of_seq in H. specialize (H ltac:(lia)).
  apply andb_true_iff in H as [H H3]. apply andb_true_iff in H as [H1 H2].
  split; [done|]. split; [by apply Nat.eqb_eq|]. intros t Ht. rewrite forallb_forall in H3.
  specialize (H3 t). rewrite <-elem_of_list_In in H3. apply H3, existsb_exists in Ht as (m & _ & Hm). by exists m.
Qed.
Lemma down_healthy : healthy Debug demo_sched "q" demo_clock winding_down.
Proof.
  intros n. split; [destruct n as [|[|n]]; [done..|]; cbn; by destruct (Nat.even n)|].
  split; [|split; [|apply down_ok]].
  all: destruct (decide (n < 34)%nat) as [Hn|Hn];
    [destruct (down_early n Hn) as (H1&H2&_)|destruct (down_idle n ltac:(lia)) as (H1&_&H2&_)].
  all: rewrite ?H2; done || lia.
Qed.
Lemma down_ticking : ticking winding_down.
Proof. intros n. exists (S (S (2 * n)))%nat. split; [lia|]. cbn [winding_down]. by rewrite Nat.even_mul. Qed.
Lemma down_polling : polling Debug demo_sched "q" demo_clock winding_down.
Proof.
  intros n t Ht. destruct (decide (n < 34)%nat) as [Hn|Hn].
  - destruct (down_early n Hn) as (_&_&H). destruct (H t Ht) as [m Hm]. apply andb_true_iff in Hm as [Hm1 Hm].
    apply Nat.leb_le in Hm1. destruct (winding_down m) as [| | | | | |[|i] u| | | |] eqn:Ee; try done.
    destruct (tasks (at_moment m)) as [|t' l] eqn:Et; [done|]. apply String.eqb_eq in Hm.
    exists m, 0%nat, u, t'. rewrite Et. done.
  - destruct (down_idle n ltac:(lia)) as (_&E&_). rewrite E in Ht. by apply elem_of_nil in Ht.
Qed.
Lemma down_quiet n : (2 <= n)%nat → no_new_work (winding_down n).
Proof. intros Hn. destruct n as [|[|n]]; [lia..|]. cbn. by destruct (Nat.even n). Qed.
Lemma down_ends id j : id ∈ pending "q" (at_moment 2) → stored (sw (at_moment 2)) id = Some j → ends_some_day j.
Proof.
  intros Hid. assert (pending "q" (at_moment 2) = ["b"; "a"]) as E by by vm_compute. rewrite E in Hid.
  apply elem_of_cons in Hid as [->|[->|Hid%elem_of_nil]%elem_of_cons]; [| |done].
  all: intros Hj; assert (∃ r, jtype (ctx j) = Normal ∧ jretry (ctx j) = r ∧ match r with Some r => r = Retry 0 (Some 2) (Interval 3000) | None => True end)
    as (r & H1 & H2 & H3).
  1,3: revert Hj; vm_compute; intros [= <-]; eexists; split; [done|]; split; [reflexivity|]; done.
  all: split; [intros; by rewrite H1|]. all: intros r' Hr'; rewrite Hr' in H2; subst r; cbn in H3; subst r'; split; [done|]; by exists 2.
Qed.
Lemma demo_clock_goes_on t : ∃ k0, ∀ k, (k0 <= k)%nat → t < demo_clock k.
Proof. exists (Z.to_nat (t + 1)). intros k Hk. unfold demo_clock. lia. Qed.

Example C105_case :
  ∃ n1, (2 <= n1)%nat ∧ ∀ n, (n1 <= n)%nat →
    qlist "q" (sw (at_moment n)) Queued = [] ∧ qlist "q" (sw (at_moment n)) Running = [] ∧ tasks (at_moment n) = [] ∧
    runs (at_moment n) = runs (at_moment n1) ∧
    (∀ id, id ∈ pending "q" (at_moment 2) →
       status_of (at_moment n) id = Some Finished ∨ status_of (at_moment n) id = Some Failed).
Proof.
  apply C105_rest; [exact down_healthy|exact down_ticking|exact down_polling|exact down_quiet|exact down_ends| |].
  - exact (C105_come_due _ _ _ _ _ 2 down_healthy down_quiet down_ends demo_clock_goes_on).
  - assert (work_left "q" (at_moment 2) = 4%nat) as -> by by vm_compute. done.
Qed.
(** The executions it allows are all made. *)
Example C105_case_executed :
  executions_left (at_moment 2) "a" = 3%nat ∧ executions_left (at_moment 2) "b" = 1%nat ∧
  map jid (runs (at_moment 34)) = ["a"; "b"; "a"; "a"] ∧ status_of (at_moment 34) "a" = Some Failed.
Proof. by vm_compute. Qed.
(** The limit is needed: a job with no limit on its tries goes on. *)
Definition for_ever : job Z :=
  set_ctx (demo_job "a" 1) (set_jretry (ctx (demo_job "a" 1)) (Some (Retry 0 None (Interval 1)))).
Example C105_no_limit :
  ¬ ends_some_day for_ever ∧
  length (runs (demo_after (EvStart :: EvEnqueue for_ever new_re_run :: concat (repeat (EvTick :: demo_polls 0 (demo_fail 1)) 6)))) = 6%nat.
Proof. split; [|by vm_compute]. intros [_ H]. destruct (H _ eq_refl) as (_ & m & Hm & _). done. Qed.
