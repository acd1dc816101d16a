(** Progress, rest and repetition of a queue on Redis. *)
From Verif Require Import SpecRedisLive RedisLive PropEver PropDrain Demo.
Open Scope Z_scope.

Section theorems.
  Context {M : Type} `{SM : Serde M} {SO : SerdeOk M}.
  Context (prof : profile).
  Context (sched : string → option (time → option time)).
  Context (name : string).
  Context (clock : nat → time).
  Notation r_moment := (r_moment prof sched name clock).
  Notation r_list := (r_list name).
  Notation r_record := (@r_record M SM).

  (** C108.  Every history gives on Redis, from an empty keyspace, the settings, tasks, executions, lists and
      records that it gives on the in-memory store. *)
  Theorem C108_same_view (es : list (event M)) :
    let s := sys_run prof sched name (mem_h clock) (sys_init world_empty) es in
    let r := sys_run prof sched name (redis_h clock) (sys_init rworld_empty) es in
    cfg r = cfg s ∧ tasks r = tasks s ∧ alive r = alive s ∧ runs r = runs s ∧
    (∀ x, r_list (sw r) x = qlist name (sw s) x) ∧ (∀ id, r_record (sw r) id = stored (sw s) id).
  Proof. exact (same_view prof sched name clock es). Qed.

  (** In every endless execution on Redis in which the queue stays alive, the timer fires again and again and
      tasks are polled again and again: a waiting job that comes due, and that nobody submits again or cancels,
      is executed and its execution ends, if no tick finds more than 20 waiting ids. *)
  Theorem C108_progress (ev : nat → event M) n0 id j :
    r_healthy prof sched name clock ev → ticking ev → r_polling prof sched name clock ev →
    id ∈ r_list (sw (r_moment ev n0)) Queued → r_record (sw (r_moment ev n0)) id = Some j →
    (∃ k0, ∀ k, (k0 <= k)%nat → due j (clock k)) →
    (∀ n, (n0 <= n)%nat → ¬ submits id (ev n) ∧ ev n ≠ EvCancel id) →
    (∀ n, (n0 <= n)%nat → ev n = EvTick → (length (r_list (sw (r_moment ev n)) Queued) <= 20)%nat) →
    ∃ n1 n2, (n0 <= n1 <= n2)%nat ∧
      (length (runs_of id (r_moment ev n0)) < length (runs_of id (r_moment ev n1)))%nat ∧
      tasks_of id (r_moment ev n2) = [].
  Proof. intros H1 H2 H3. exact (r_progress prof sched name clock ev H1 H2 H3 n0 id j). Qed.

  (** If it gets no more work, time goes on, and none of the pending jobs is repeated for ever, it comes to rest
      with both lists empty and every job finished or failed. *)
  Theorem C108_rest (ev : nat → event M) n0 :
    r_healthy prof sched name clock ev → ticking ev → r_polling prof sched name clock ev →
    (∀ n, (n0 <= n)%nat → no_new_work (ev n)) →
    (∀ id j, id ∈ r_pending name (sw (r_moment ev n0)) → r_record (sw (r_moment ev n0)) id = Some j → ends_some_day j) →
    (∀ t, ∃ k0, ∀ k, (k0 <= k)%nat → t < clock k) →
    Z.of_nat (r_work_left (M := M) name (sw (r_moment ev n0))) <= i32_max →
    ∃ n1, (n0 <= n1)%nat ∧ ∀ n, (n1 <= n)%nat →
      r_list (sw (r_moment ev n)) Queued = [] ∧ r_list (sw (r_moment ev n)) Running = [] ∧ tasks (r_moment ev n) = [] ∧
      runs (r_moment ev n) = runs (r_moment ev n1) ∧
      (∀ id, id ∈ r_pending name (sw (r_moment ev n0)) → ∃ j, r_record (sw (r_moment ev n)) id = Some j ∧
         (jstatus (ctx j) = Finished ∨ jstatus (ctx j) = Failed)).
  Proof. intros H1 H2 H3. exact (r_rest prof sched name clock ev H1 H2 H3 n0). Qed.

  (** A cron job without limits is executed any number of times. *)
  Theorem C108_again (ev : nat → event M) n0 id j :
    r_healthy prof sched name clock ev → ticking ev → r_polling prof sched name clock ev → time_goes_on clock →
    (∀ n, (n0 <= n)%nat → ¬ submits id (ev n) ∧ ev n ≠ EvCancel id) →
    (∀ n, (n0 <= n)%nat → ev n = EvTick → (length (r_list (sw (r_moment ev n)) Queued) <= 20)%nat) →
    id ∈ r_list (sw (r_moment ev n0)) Queued → r_record (sw (r_moment ev n0)) id = Some j → without_end sched j →
    ∀ N, ∃ n, (n0 <= n)%nat ∧ (N <= length (runs_of id (r_moment ev n)))%nat.
  Proof. intros H1 H2 H3. exact (r_again prof sched name clock ev H1 H2 H3 n0 id j). Qed.
End theorems.
Print Assumptions C108_same_view.
Print Assumptions C108_progress.
Print Assumptions C108_rest.
Print Assumptions C108_again.

(** *** Examples *)
(** The endless executions of C105 and C106, on Redis. *)
Notation r_beats := (r_moment (M := Z) Release demo_sched "q" demo_clock beats).
Notation r_down := (r_moment (M := Z) Debug demo_sched "q" demo_clock winding_down).
Lemma r_beats_healthy : r_healthy Release demo_sched "q" demo_clock beats.
Proof.
  intros n. destruct (beats_healthy n) as (H1 & H2 & H3 & _). destruct (view Release demo_sched "q" demo_clock beats n) as (E1 & _ & E3 & _).
  rewrite E1, E3. split; [done|]. split; [|done]. destruct n as [|n]; [done|]. cbn. by destruct (Nat.even n).
Qed.
Lemma r_beats_polling : r_polling Release demo_sched "q" demo_clock beats.
Proof.
  intros n t Ht. rewrite v_tasks in Ht. destruct (beats_polling n t Ht) as (m & i & u & t' & H). exists m, i, u, t'. by rewrite v_tasks.
Qed.
Lemma r_down_healthy : r_healthy Debug demo_sched "q" demo_clock winding_down.
Proof.
  intros n. destruct (down_healthy n) as (H1 & H2 & H3 & _). destruct (view Debug demo_sched "q" demo_clock winding_down n) as (E1 & _ & E3 & _).
  rewrite E1, E3. split; [done|]. split; [|done]. destruct n as [|[|n]]; [done..|]. cbn. by destruct (Nat.even n).
Qed.
Lemma r_down_polling : r_polling Debug demo_sched "q" demo_clock winding_down.
Proof.
  intros n t Ht. rewrite v_tasks in Ht. destruct (down_polling n t Ht) as (m & i & u & t' & H). exists m, i, u, t'. by rewrite v_tasks.
Qed.
Lemma r_down_ends id j : id ∈ r_pending "q" (sw (r_down 2)) → r_record (sw (r_down 2)) id = Some j → ends_some_day j.
Proof. rewrite v_pending, v_record. apply down_ends. Qed.

Example C108_rest_case :
  ∃ n1, (2 <= n1)%nat ∧ ∀ n, (n1 <= n)%nat →
    r_list "q" (sw (r_down n)) Queued = [] ∧ r_list "q" (sw (r_down n)) Running = [] ∧ tasks (r_down n) = [] ∧
    runs (r_down n) = runs (r_down n1) ∧
    (∀ id, id ∈ r_pending "q" (sw (r_down 2)) → ∃ j, r_record (sw (r_down n)) id = Some j ∧
       (jstatus (ctx j) = Finished ∨ jstatus (ctx j) = Failed)).
Proof.
  apply C108_rest; [exact r_down_healthy|exact down_ticking|exact r_down_polling|exact down_quiet|exact r_down_ends|exact demo_clock_goes_on|].
  rewrite v_work. assert (work_left "q" (moment Debug demo_sched "q" demo_clock winding_down 2) = 4%nat) as -> by by vm_compute. done.
Qed.
Example C108_rest_case_pending : r_pending "q" (sw (r_down 2)) = ["b"; "a"] ∧ map jid (runs (r_down 34)) = ["a"; "b"; "a"; "a"].
Proof. by vm_compute. Qed.
Lemma r_beats_first : ∃ j, "c" ∈ r_list "q" (sw (r_beats 1)) Queued ∧ r_record (sw (r_beats 1)) "c" = Some j ∧ without_end demo_sched j.
Proof.
  assert (∃ j : job Z, r_record (sw (r_beats 1)) "c" = Some j ∧
    jtype (ctx j) = Cron "* * * * * *" 1000000000 0 (CronContext 0 None None) ∧ jretry (ctx j) = None) as (j & H1 & H2 & H3).
  { destruct (r_record (sw (r_beats 1)) "c") as [j|] eqn:E; [|by vm_compute in E]. exists j. split; [done|].
    revert E. vm_compute. by intros [= <-]. }
  exists j. split; [vm_compute; apply elem_of_list_here|]. split; [done|]. eexists _, _, _, _, _. split; [exact H2|]. done.
Qed.
Lemma r_beats_short n : (length (r_list "q" (sw (r_beats n)) Queued) <= 20)%nat.
Proof. rewrite v_list. pose proof (beats_short n). lia. Qed.
Example C108_again_case N : ∃ n, (1 <= n)%nat ∧ (N <= length (runs_of "c" (r_beats n)))%nat.
Proof.
  destruct r_beats_first as (j & H1 & H2 & H3).
  apply (C108_again Release demo_sched "q" demo_clock beats 1 "c" j);
    [exact r_beats_healthy|exact beats_ticking|exact r_beats_polling|exact demo_clock_goes_on| | |exact H1|exact H2|exact H3].
  - intros n Hn. destruct (beats_later n Hn) as [-> | ->]; (split; [by intros H|done]).
  - intros n _ _. apply r_beats_short.
Qed.
Example C108_progress_case : ∃ n1 n2, (1 <= n1 <= n2)%nat ∧
  (length (runs_of "c" (r_beats 1)) < length (runs_of "c" (r_beats n1)))%nat ∧ tasks_of "c" (r_beats n2) = [].
Proof.
  destruct r_beats_first as (j & H1 & H2 & x & sl & r & cc & f & H3 & H4 & H5 & _).
  apply (C108_progress Release demo_sched "q" demo_clock beats 1 "c" j);
    [exact r_beats_healthy|exact beats_ticking|exact r_beats_polling|exact H1|exact H2| | |].
  - destruct (demo_clock_goes_on sl) as [k0 Hk0]. exists k0. intros k Hk. unfold due. rewrite H3, H4, H5.
    specialize (Hk0 k Hk). split; [lia|done].
  - intros n Hn. destruct (beats_later n Hn) as [-> | ->]; (split; [by intros H|done]).
  - intros n _ _. apply r_beats_short.
Qed.
