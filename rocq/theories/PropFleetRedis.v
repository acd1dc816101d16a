(** Progress, rest and repetition of several processes on one Redis. *)
From Verif Require Import SpecFleetRedis LifeFacts LiveFacts WorkersFacts FleetFair FleetRedis PropFleetFair PropFleetEver PropFleetRest PropWorkers Demo.
Open Scope Z_scope.

Section theorems.
  Context {M : Type} `{SM : Serde M} {SO : SerdeOk M}.
  Context (prof : nat → profile).
  Context (sched : nat → string → option (time → option time)).
  Context (name : string).
  Context (clock : nat → nat → time).
  Notation moment := (rf_moment prof sched name clock).
  Notation r_list := (r_list name).
  Notation r_record := (@r_record M SM).
  Notation to_do := (rf_to_do name).

  (** C119.  Every history of [N] processes gives on one Redis, from an empty keyspace, the processes (their
      settings, tasks and whether they live), executions, lists and records that it gives on one in-memory
      store. *)
  Theorem C119_same_view N (es : list (nat * event M)) :
    let f := fleet_after prof sched name clock N es in
    let r := rf_after prof sched name clock N es in
    rf_members r = f_members f ∧ rf_runs r = f_runs f ∧
    (∀ x, r_list (rf_world r) x = qlist name (f_world f) x) ∧ (∀ id, r_record (rf_world r) id = stored (f_world f) id).
  Proof. exact (fleet_same_view prof sched name clock N es). Qed.

  (** So in every history of whole steps in which no process dies in the middle of a step, no job has two tasks,
      in one process or in two; the tasks of all processes together respect the largest limit that any of them
      was given; and the status of a job changes along the life cycle only. *)
  Theorem C119_no_overlap N (es : list (nat * event M)) :
    rf_ok prof sched name clock N es → NoDup (map tid (rf_tasks (rf_after prof sched name clock N es))).
  Proof. exact (rf_no_overlap prof sched name clock N es). Qed.
  Theorem C119_limit N (es : list (nat * event M)) :
    rf_ok prof sched name clock N es →
    let f := rf_after prof sched name clock N es in
    (length (rf_tasks f) <= length (r_list (rf_world f) Running) <= limit_of (map snd es))%nat.
  Proof. exact (rf_limit prof sched name clock N es). Qed.
  Theorem C119_status N (es : list (nat * event M)) ie id :
    rf_ok prof sched name clock N (es ++ [ie]) →
    let status f := (λ j : job M, jstatus (ctx j)) <$> r_record (rf_world f) id in
    let before := status (rf_after prof sched name clock N es) in
    let now := status (rf_after prof sched name clock N (es ++ [ie])) in
    now = before ∨ legal before now.
  Proof. exact (rf_status prof sched name clock N es ie id). Qed.

  (** In every endless execution of [N] processes on one Redis in which from [n0] on no process dies and limits
      exceed the number of lost ids, timers fire and tasks are polled again and again: a waiting job that comes
      due by all clocks, and that nobody submits again or cancels, is executed by some process and its
      execution ends, if no tick finds more than 20 waiting ids. *)
  Theorem C119_progress N ev n0 a id j :
    rf_healthy prof sched name clock N ev n0 → rf_ticking prof sched name clock N ev → rf_polling prof sched name clock N ev n0 →
    (n0 <= a)%nat → id ∈ r_list (rf_world (moment N ev a)) Queued → r_record (rf_world (moment N ev a)) id = Some j →
    (∃ k0, ∀ i k, (k0 <= k)%nat → due j (clock i k)) →
    (∀ n, (a <= n)%nat → ¬ submits id (ev n).2 ∧ (ev n).2 ≠ EvCancel id) →
    (∀ n, (a <= n)%nat → (ev n).2 = EvTick ∨ (ev n).2 = EvStart → (length (r_list (rf_world (moment N ev n)) Queued) <= 20)%nat) →
    ∃ k1 k2, (a <= k1 <= k2)%nat ∧
      (length (rf_runs_of id (moment N ev a)) < length (rf_runs_of id (moment N ev k1)))%nat ∧
      id ∉ map tid (rf_tasks (moment N ev k2)).
  Proof. exact (rf_progress prof sched name clock N ev n0 a id j). Qed.

  (** If they get no more work, all clocks go on, and none of the jobs to do is repeated for ever, they come to
      rest: nothing waits, no process has a task, nothing is executed any more, every job to do is finished or
      failed, other records are as before, and the processing list has the ids that were lost before. *)
  Theorem C119_rest N (ev : nat → nat * event M) n0 :
    rf_healthy prof sched name clock N ev n0 → rf_ticking prof sched name clock N ev → rf_polling prof sched name clock N ev n0 →
    (∀ n, (n0 <= n)%nat → f_no_new_work (ev n).2) →
    (∀ id j, id ∈ to_do (moment N ev n0) → r_record (rf_world (moment N ev n0)) id = Some j → ends_some_day j) →
    (∀ t, ∃ k0, ∀ i k, (k0 <= k)%nat → t < clock i k) →
    Z.of_nat (rf_work_left name (moment N ev n0)) <= i32_max →
    ∃ n1, (n0 <= n1)%nat ∧ ∀ n, (n1 <= n)%nat →
      r_list (rf_world (moment N ev n)) Queued = [] ∧ rf_tasks (moment N ev n) = [] ∧
      r_list (rf_world (moment N ev n)) Running ≡ₚ rf_lost name (moment N ev n0) ∧
      rf_runs (moment N ev n) = rf_runs (moment N ev n1) ∧
      (∀ id, id ∈ to_do (moment N ev n0) → ∃ j, r_record (rf_world (moment N ev n)) id = Some j ∧
         (jstatus (ctx j) = Finished ∨ jstatus (ctx j) = Failed)) ∧
      (∀ id, id ∉ to_do (moment N ev n0) → r_record (rf_world (moment N ev n)) id = r_record (rf_world (moment N ev n0)) id).
  Proof. exact (rf_rest prof sched name clock N ev n0). Qed.
End theorems.

Section theorems.
  Context {M : Type} `{SM : Serde M} {SO : SerdeOk M}.
  Context (prof : nat → profile).
  Context (sched : string → option (time → option time)).
  Context (name : string).
  Context (clock : nat → nat → time).
  Notation moment := (rf_moment prof (λ _, sched) name clock).

  (** A cron job without limits is executed any number of times, by whichever processes. *)
  Theorem C119_again N (ev : nat → nat * event M) n0 a id j :
    rf_healthy prof (λ _, sched) name clock N ev n0 → rf_ticking prof (λ _, sched) name clock N ev →
    rf_polling prof (λ _, sched) name clock N ev n0 →
    (n0 <= a)%nat → id ∈ r_list name (rf_world (moment N ev a)) Queued → r_record (rf_world (moment N ev a)) id = Some j →
    without_end sched j → (∀ t, ∃ k0, ∀ i k, (k0 <= k)%nat → t < clock i k) →
    (∀ n, (a <= n)%nat → ¬ submits id (ev n).2 ∧ (ev n).2 ≠ EvCancel id) →
    (∀ n, (a <= n)%nat → (ev n).2 = EvTick ∨ (ev n).2 = EvStart →
       (length (r_list name (rf_world (moment N ev n)) Queued) <= 20)%nat) →
    ∀ K, ∃ n, (a <= n)%nat ∧ (K <= length (rf_runs_of id (moment N ev n)))%nat.
  Proof. exact (rf_again prof sched name clock N ev n0 a id j). Qed.
End theorems.
Print Assumptions C119_same_view.
Print Assumptions C119_no_overlap.
Print Assumptions C119_limit.
Print Assumptions C119_status.
Print Assumptions C119_progress.
Print Assumptions C119_rest.
Print Assumptions C119_again.

(** *** Examples *)
(** The endless executions of C107 and C117, on one Redis. *)
Notation r_two := (rf_moment (M := Z) (λ _, Debug) (λ _, demo_sched) "q" two_clock 2 two).
Notation r_turn := (rf_moment (M := Z) (λ _, Release) (λ _, demo_sched) "q" ahead 2 turns).
Example C119_case_view :
  r_list "q" (rf_world (r_two 7)) Queued = ["b"] ∧ rf_lost "q" (r_two 7) = ["a"] ∧ rf_to_do "q" (r_two 7) = ["b"] ∧
  rf_work_left "q" (r_two 7) = 1%nat ∧ map jid (rf_runs (r_two 22)) = ["b"].
Proof. by vm_compute. Qed.
Example C119_case_rest :
  ∃ n1, (7 <= n1)%nat ∧ ∀ n, (n1 <= n)%nat →
    r_list "q" (rf_world (r_two n)) Queued = [] ∧ rf_tasks (r_two n) = [] ∧
    r_list "q" (rf_world (r_two n)) Running ≡ₚ rf_lost "q" (r_two 7) ∧ rf_runs (r_two n) = rf_runs (r_two n1) ∧
    (∀ id, id ∈ rf_to_do "q" (r_two 7) → ∃ j, r_record (M := Z) (rf_world (r_two n)) id = Some j ∧
       (jstatus (ctx j) = Finished ∨ jstatus (ctx j) = Failed)) ∧
    (∀ id, id ∉ rf_to_do "q" (r_two 7) → r_record (M := Z) (rf_world (r_two n)) id = r_record (rf_world (r_two 7)) id).
Proof.
  apply (C119_rest (λ _, Debug) (λ _, demo_sched) "q" two_clock 2 two 7).
  - apply fv_healthy_back, two_healthy_7.
  - apply fv_ticking_back, C107_ticking.
  - apply fv_polling_back. intros n i m t Hn. apply C107_polling. lia.
  - exact two_quiet.
  - intros id j. rewrite fv_to_do, fv_record. apply two_ends.
  - exact two_clock_goes_on.
  - destruct C119_case_view as (_ & _ & _ & -> & _). done.
Qed.
Example C119_case_progress : ∃ k1 k2, (7 <= k1 <= k2)%nat ∧
  (length (rf_runs_of "b" (r_two 7)) < length (rf_runs_of "b" (r_two k1)))%nat ∧ "b" ∉ map tid (rf_tasks (r_two k2)).
Proof.
  destruct C107_case as (_ & Hq & _ & (j & Hj & Hd) & Hs & Ha).
  apply (C119_progress (λ _, Debug) (λ _, demo_sched) "q" two_clock 2 two 7 7 "b" j).
  - apply fv_healthy_back, two_healthy_7.
  - apply fv_ticking_back, C107_ticking.
  - apply fv_polling_back. intros n i m t Hn. apply C107_polling. lia.
  - lia.
  - rewrite fv_list, Hq. left.
  - by rewrite fv_record.
  - exact Hd.
  - exact Hs.
  - intros n Hn _. rewrite fv_list. destruct (decide (n < 26)%nat) as [Hlt|Hge].
    + assert (forallb (λ n, Nat.leb (length (qlist "q" (f_world (at_two n)) Queued)) 20) (seq 7 19) = true) as H by (by vm_compute).
      rewrite forallb_forall in H. specialize (H n). rewrite <-elem_of_list_In, elem_of_seq in H. apply Nat.leb_le, H. lia.
    + destruct (two_later n ltac:(lia)) as [-> _]. cbn. lia.
Qed.
Example C119_case_again K : ∃ n, (3 <= n)%nat ∧ (K <= length (rf_runs_of "c" (r_turn n)))%nat.
Proof.
  destruct (C117_case K) as (n & Hn & HK). exists n. by rewrite fv_runs_of.
Qed.
Example C119_again_case :
  rf_healthy (λ _, Release) (λ _, demo_sched) "q" ahead 2 turns 3 ∧ rf_ticking (λ _, Release) (λ _, demo_sched) "q" ahead 2 turns ∧
  rf_polling (λ _, Release) (λ _, demo_sched) "q" ahead 2 turns 3 ∧
  r_list "q" (rf_world (r_turn 3)) Queued = ["c"] ∧
  (∀ n, (length (r_list "q" (rf_world (r_turn n)) Queued) <= 1)%nat).
Proof.
  split; [apply fv_healthy_back, C117_healthy|]. split; [apply fv_ticking_back, C117_ticking|].
  split; [apply fv_polling_back, C117_polling|]. split; [by vm_compute|].
  intros n. rewrite fv_list. apply turns_short.
Qed.

(** The history of C60 on one Redis: two processes, one of which dies. *)
Example C119_case_ok :
  let after es := rf_after (λ _, Debug) (λ _, demo_sched) "q" (λ i k, demo_clock (k + 100 * i)) 2 es in
  rf_ok (λ _, Debug) (λ _, demo_sched) "q" (λ i k, demo_clock (k + 100 * i)) 2 pw_es ∧
  map tid (rf_tasks (after (take 8 pw_es))) = ["a"; "b"] ∧
  r_list "q" (rf_world (after (take 8 pw_es))) Running = ["b"; "a"].
Proof.
  cbv zeta. split; [|by vm_compute]. intros k [i e] H. apply elem_of_list_lookup_2 in H. unfold pw_es, pw_start, pw_rest in H.
  cbn in H. rewrite !elem_of_cons, elem_of_nil in H.
  repeat (destruct H as [H|H]; [injection H as -> ->; cbn; auto|]). done.
Qed.
