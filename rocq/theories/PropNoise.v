(** Other queues and programs on the same Redis server, that change records of other ids at any time. *)
From Verif Require Import Spec SpecNoise BackendFacts NoiseFacts KeysFacts Demo PropKeys.
Import Spec.
Open Scope Z_scope.

Section theorems.
  Context {M : Type} `{SM : Serde M} {SO : SerdeOk M}.
  Context (prof : profile).
  Context (sched : string → option (time → option time)).
  Context (name : string).
  Context (K : string → Prop).
  Context (clock : nat → time).
  Notation go := (sys_run prof sched name (redis_h clock)).

  (** C116.  [K] are the ids of the queue: those in its lists, of its tasks, and that its callers name.  Before every
      call of the backend other programs change the server in any way, as long as the lists of the queue and the
      records of its ids stay and the common hash stays a hash.  Answers, tasks, executions, lists and records are as
      if the queue were alone. *)
  Theorem C116_alone noise (s : sys (rworld * nat) M) (s' : sys rworld M) es :
    fair_share name K noise → typed name (sw s') → keeps_to name K s' → Forall (names_only K) es →
    typed name (sw s).1 → same_part name K (sw s).1 (sw s') → same_process s s' →
    let t := sys_run prof sched name (noisy_h clock noise) s es in
    responses prof sched name (noisy_h clock noise) s es = responses prof sched name (redis_h clock) s' es ∧
    same_part name K (sw t).1 (sw (go s' es)) ∧ same_process t (go s' es).
  Proof. exact (noise_same prof sched name K clock noise s s' es). Qed.

  (** And the queue is such a program for all others: it leaves the lists of other names and the records of other ids
      alone, and the hash stays a hash. *)
  Theorem C116_others (s : sys rworld M) es :
    typed name (sw s) → keeps_to name K s → Forall (names_only K) es →
    (∀ name' x, name' ≠ name → r_list name' (sw (go s es)) x = r_list name' (sw s) x) ∧
    (∀ id, ¬ K id → held (keys (sw (go s es))) id = held (keys (sw s)) id) ∧
    (∀ l, keys (sw (go s es)) !! STORAGE_HASH ≠ Some (RList l)).
  Proof.
    intros H1 H2 H3. split; [intros name' x; by apply other_lists|].
    split; [intros id; by apply (others_kept prof sched name K clock)|by apply hash_stays].
  Qed.
End theorems.
Print Assumptions C116_alone.
Print Assumptions C116_others.

(** *** Examples *)
(** On the server of C113, a queue "p" works on "z" and a program fills the hash. *)
Definition mine_q (id : string) : Prop := id ∈ ["a"; "b"; "ghost"].
Definition bustle (n : nat) (ks : keyspace) : keyspace :=
  match ks !! STORAGE_HASH with
  | Some (RHash m) => <[STORAGE_HASH := RHash (<["z" := enc_job (demo_job "z" (Z.of_nat n))]> (<["w" := None]> m))]> (busy_server n ks)
  | _ => busy_server n ks
  end.
Lemma bustle_fair : fair_share "q" mine_q bustle.
Proof.
  assert (∀ n ks k, own_key "q" k → busy_server n ks !! k = ks !! k) as Hb by exact busy_polite.
  intros n ks. assert (∀ s, STORAGE_HASH ≠ format_queue_name "q" s) as Hne by (intros s E; symmetry in E; by apply queue_key_not_storage in E).
  unfold bustle. destruct (ks !! STORAGE_HASH) as [[l|m]|] eqn:E.
  - split; [intros s; apply Hb; right; by exists s|]. split.
    + intros id _. unfold held. by rewrite Hb, E by by left.
    + intros H. by destruct (H l).
  - split; [intros s; rewrite lookup_insert_ne by done; apply Hb; right; by exists s|]. split.
    + intros id Hid. unfold held. rewrite E, lookup_insert.
      rewrite !lookup_insert_ne; [done|..]; intros <-; revert Hid; apply (bool_decide_eq_true_1 (_ ∉ _)); by vm_compute.
    + intros _ l. by rewrite lookup_insert.
  - split; [intros s; apply Hb; right; by exists s|]. split.
    + intros id _. unfold held. by rewrite Hb, E by by left.
    + intros _ l. by rewrite Hb, E by by left.
Qed.
Lemma shared_keeps : keeps_to "q" mine_q shared_sys.
Proof.
  split; [|split; [|by intros t ?%elem_of_nil]].
  - intros x id. unfold mine_q. destruct x; (match goal with |- context [r_list ?n ?w ?s] => let v := eval vm_compute in (r_list n w s) in
      change (r_list n w s) with v end); set_solver.
  - intros id js j Hid Hh Hd. assert (id = "a" → jid j = "a") as Ha.
    { intros ->. vm_compute in Hh. injection Hh as <-. vm_compute in Hd. by injection Hd as <-. }
    unfold mine_q in *. apply elem_of_cons in Hid as [->|Hid]; [rewrite Ha by done; left|].
    exfalso. repeat (apply elem_of_cons in Hid as [->|Hid]; [by vm_compute in Hh|]). by apply elem_of_nil in Hid.
Qed.
Definition bustle_sys : sys (rworld * nat) Z := Sys (shared, 0%nat) (WqConfig 1 3) [] true [].
Notation bustle_run := (sys_run Release demo_sched "q" (noisy_h demo_clock bustle)).
Example ex_C116_alone : let t := bustle_run bustle_sys k_day in
  responses Release demo_sched "q" (noisy_h demo_clock bustle) bustle_sys k_day =
  responses Release demo_sched "q" (redis_h demo_clock) shared_sys k_day ∧
  same_part "q" mine_q (sw t).1 (sw (k_run shared_sys k_day)) ∧ same_process t (k_run shared_sys k_day).
Proof.
  apply (C116_alone Release demo_sched "q" mine_q demo_clock).
  - exact bustle_fair.
  - exact shared_typed.
  - exact shared_keeps.
  - unfold k_day. repeat constructor; set_solver.
  - exact shared_typed.
  - done.
  - done.
Qed.
(** The record of "z" was changed meanwhile. *)
Example ex_C116_changed : let t := bustle_run bustle_sys k_day in
  map jid (runs t) = ["a"] ∧ (∃ j : job Z, r_record (sw t).1 "z" = Some j ∧ data j ≠ 3) ∧
  held (keys (sw t).1) "w" = Some None ∧ held (keys (sw (k_run shared_sys k_day))) "w" = None.
Proof. cbv zeta. split; [by vm_compute|]. split; [|by vm_compute]. eexists. split; [vm_compute; reflexivity|]. done. Qed.
Example ex_C116_others :
  r_list "p" (sw (k_run shared_sys k_day)) Queued = ["z"] ∧
  held (keys (sw (k_run shared_sys k_day))) "z" = Some (enc_job (demo_job "z" 3)).
Proof.
  destruct (C116_others Release demo_sched "q" mine_q demo_clock shared_sys k_day) as (H1 & H2 & _).
  - exact shared_typed.
  - exact shared_keeps.
  - unfold k_day. repeat constructor; set_solver.
  - rewrite H1, H2; [by vm_compute| |done]. apply (bool_decide_eq_true_1 (_ ∉ _)). by vm_compute.
Qed.
