(** Several queues on one backend. *)
From Verif Require Import SpecMulti MultiFacts Demo.

Section theorems.
  Context (prof : profile).
  Context (sched : string → option (time → option time)).
  Context (qs : list queue_spec) (s0 : store).
  Context (Hok : Forall (queue_ok s0) qs).
  Context (Hap : ∀ i j q q', qs !! i = Some q → qs !! j = Some q' → i ≠ j → apart q q').
  Notation th := (thread_of prof sched).

  (** C45: any number of queues with different names and no common ids, of any job types, each on its
      own thread with its own history (calls, ticks, task steps, panics, crashes, restarts) and its own
      readings of the clock.  After any interleaving of the backend calls every thread is exactly where
      it is after the same number of its own steps without the other threads, and the store is the same
      as far as the queue can see it. *)
  Theorem C45_non_interference schedule i q :
    qs !! i = Some q →
    (joint schedule (th <$> qs) s0).1 !! i = Some (solo (turns i schedule) (th q) s0).1 ∧
    same_view q (joint schedule (th <$> qs) s0).2 (solo (turns i schedule) (th q) s0).2.
  Proof. exact (joint_is_solo prof sched qs s0 Hok Hap schedule i q). Qed.

  (** A thread that ended has the answers, notifications, executions of user code, configuration and
      tasks of the history run alone, and left its jobs and lists alike; and every thread that gets
      enough turns ends. *)
  Theorem C45_same_as_alone i q :
    let _ := q_serde q in
    let init := sys_init (World s0 0 []) in
    let alone := sys_run prof sched (q_name q) (mem_h (q_clock q)) init (q_events q) in
    let answers := responses prof sched (q_name q) (mem_h (q_clock q)) init (q_events q) in
    let final := Thread _ (Ret (own_state alone, answers)) (q_clock q) (reads (sw alone)) (log (sw alone)) in
    qs !! i = Some q →
    (∀ schedule t, (joint schedule (th <$> qs) s0).1 !! i = Some t → ended t →
       t = final ∧ same_view q (joint schedule (th <$> qs) s0).2 (st (sw alone))) ∧
    ∃ n, ∀ schedule, (n ≤ turns i schedule)%nat →
       (joint schedule (th <$> qs) s0).1 !! i = Some final.
  Proof. exact (joint_alone prof sched qs s0 i q Hok Hap). Qed.
End theorems.
Print Assumptions C45_non_interference.
Print Assumptions C45_same_as_alone.

(** The same threads on Redis go through the same states. *)
Theorem C45_on_redis prof sched qs schedule :
  Forall (queue_ok store_empty) qs →
  (∀ i j q q', qs !! i = Some q → qs !! j = Some q' → i ≠ j → apart q q') →
  (joint_redis schedule (thread_of prof sched <$> qs) ∅).1 =
  (joint schedule (thread_of prof sched <$> qs) store_empty).1.
Proof. exact (joint_redis_same prof sched qs schedule). Qed.
Print Assumptions C45_on_redis.

(** Two queues, of numbers and of texts. *)
Definition text_serde : Serde string := {| ser s := Some (JStr s); de := dec_str |}.
Definition text_job (id d : string) : job string := job_new id 0 d.
Definition numbers (id : string) : queue_spec :=
  QSpec Z demo_serde "numbers" demo_clock
    ([EvStart; EvEnqueue (demo_job id 1) new_re_run; EvTick] ++ demo_polls 0 (demo_ok 2) ++ [EvGet id])
    (λ x, x = id).
Definition text_ok : user_result string := UserResult "done" false (DefaultRetryAt false).
Definition texts (id : string) : queue_spec :=
  QSpec string text_serde "texts" demo_clock
    [EvStart; EvEnqueue (text_job id "hello") new_re_run; EvTick;
     EvTask 0 text_ok; EvTask 0 text_ok; EvTask 0 text_ok; EvTask 0 text_ok; EvGet id]
    (λ x, x = id).

Lemma numbers_ok id : queue_ok store_empty (numbers id).
Proof.
  split; [repeat constructor|]. split.
  - intros s x H. by apply elem_of_nil in H.
  - intros x js j _ H. done.
Qed.
Lemma texts_ok id : queue_ok store_empty (texts id).
Proof.
  split; [repeat constructor|]. split.
  - intros s x H. by apply elem_of_nil in H.
  - intros x js j _ H. done.
Qed.
Lemma numbers_texts_apart i j q q' :
  [numbers "a"; texts "b"] !! i = Some q → [numbers "a"; texts "b"] !! j = Some q' → i ≠ j → apart q q'.
Proof.
  assert (apart (numbers "a") (texts "b")) as H by (split; [done|]; by intros id -> [=]).
  assert (apart (texts "b") (numbers "a")) as H' by (split; [done|]; by intros id -> [=]).
  destruct i as [|[|i]], j as [|[|j]]; cbn; intros E E' Hne; simplify_eq; done.
Qed.

(** Taking turns, both queues run their jobs. *)
Definition turn_by_turn (n : nat) : list nat := concat (repeat [0; 1]%nat n).
Definition ended_b (t : thread) : bool := match th_prog t with Eff _ _ => false | _ => true end.
Example C45_case :
  let r := joint (turn_by_turn 60) (thread_of Debug demo_sched <$> [numbers "a"; texts "b"]) store_empty in
  map ended_b r.1 = [true; true] ∧
  map (λ t, length (th_log t)) r.1 = [5; 5]%nat ∧
  items r.2 (format_queue_name "numbers" Finished) = ["a"] ∧
  items r.2 (format_queue_name "texts" Finished) = ["b"].
Proof. split; [by vm_compute|]. split; [by vm_compute|]. split; by vm_compute. Qed.
Example C45_applies : Forall (queue_ok store_empty) [numbers "a"; texts "b"].
Proof. constructor; [apply numbers_ok|]. constructor; [apply texts_ok|constructor]. Qed.

(** C46 is false: with the same id, the second queue overwrites the record of the first, whose job
    then never runs. *)
Definition clash : list nat := (repeat 0 8 ++ repeat 1 60 ++ repeat 0 60)%nat.
Theorem C46_refuted :
  let r := joint clash (thread_of Debug demo_sched <$> [numbers "a"; texts "a"]) store_empty in
  q_name (numbers "a") ≠ q_name (texts "a") ∧
  Forall (queue_ok store_empty) [numbers "a"; texts "a"] ∧ Forall ended r.1 ∧
  (* alone, the first queue runs its job to the end *)
  log (sw (sys_run Debug demo_sched "numbers" (mem_h demo_clock) (sys_init world_empty) (q_events (numbers "a")))) =
    [ChangeStatus "a" Queued; ChangeStatus "a" Running; RunHook "a" true; RunHook "a" true;
     ChangeStatus "a" Finished] ∧
  (* together, it stays queued *)
  (th_log <$> (r.1 !! 0%nat)) = Some [ChangeStatus "a" Queued] ∧
  items r.2 (format_queue_name "numbers" Queued) = ["a"].
Proof.
  cbv zeta. split; [done|]. split.
  { constructor; [apply numbers_ok|]. constructor; [apply texts_ok|constructor]. }
  split; [vm_compute; repeat constructor|]. split; [by vm_compute|]. split; by vm_compute.
Qed.
Print Assumptions C46_refuted.

Section clash.
  Context {MA MB : Type} {SA : Serde MA} {SB : Serde MB}.
  Context (prof : profile).
  Context (sched : string → option (time → option time)).
  Context (name : string).
  Context (clock : nat → time).
  Notation step := (sys_step prof sched name (mem_h clock)).

  (** In general: a queue that submits a job under an id of another type whose record it cannot read,
      or can read and overrides, puts its own record in the place; the other type finds its job
      only if it can read this one. *)
  Theorem C46_overwritten_refuted (s : sys world MB) (j : job MB) c :
    alive s = true →
    stored (M := MB) (sw s) (jid j) = None ∨
    override_data c = true ∧ (∀ ex, stored (M := MB) (sw s) (jid j) = Some ex → jstatus (ctx ex) ≠ Running) →
    ∃ j', jid j' = jid j ∧ data j' = data j ∧
      mem_sget (st (sw (step s (EvEnqueue j c)).1)) STORAGE_HASH (jid j) = Some (enc_job j').
  Proof. exact (clash_overwrites prof sched name clock s j c). Qed.

  (** If it cannot read it, the job is lost to it. *)
  Theorem C46_lost_refuted (s : sys world MB) (j : job MB) (ja : job MA) c :
    alive s = true →
    stored (M := MA) (sw s) (jid j) = Some ja → stored (M := MB) (sw s) (jid j) = None →
    (∀ (m : MB) v, ser m = Some v → de (M := MA) v = None) →
    stored (M := MA) (sw (step s (EvEnqueue j c)).1) (jid j) = None.
  Proof. exact (clash_lost prof sched name clock s j ja c). Qed.
End clash.
Print Assumptions C46_overwritten_refuted.
Print Assumptions C46_lost_refuted.

(** A queue of texts after start, in a store with job "a" of the queue of numbers. *)
Definition numbers_first : world :=
  sw (sys_run Debug demo_sched "numbers" (mem_h demo_clock) (sys_init world_empty)
        [EvStart; EvEnqueue (demo_job "a" 1) new_re_run]).
Definition texts_next : sys world string :=
  sys_run (SM := text_serde) Debug demo_sched "texts" (mem_h demo_clock) (sys_init numbers_first) [EvStart].
Example C46_case :
  alive texts_next = true ∧
  (data <$> stored (M := Z) (sw texts_next) "a") = Some 1 ∧
  stored (SM := text_serde) (sw texts_next) "a" = None ∧
  (∀ m v, ser (Serde := text_serde) m = Some v → de (M := Z) v = None) ∧
  stored (M := Z) (sw (sys_step (SM := text_serde) Debug demo_sched "texts" (mem_h demo_clock) texts_next
    (EvEnqueue (text_job "a" "hello") new_re_run)).1) "a" = None.
Proof.
  split; [by vm_compute|]. split; [by vm_compute|]. split; [by vm_compute|]. split; [|by vm_compute].
  by intros m v [= <-].
Qed.
