(** Every due job is executed by some process of a fleet that lives on. *)
From Verif Require Import SpecFleetFair LifeFacts LiveFacts WorkersFacts FleetFair Demo.

Section theorems.
  Context {M : Type} `{SM : Serde M} {SO : SerdeOk M}.
  Context (prof : nat → profile).
  Context (sched : nat → string → option (time → option time)).
  Context (name : string).
  Context (clock : nat → nat → time).
  Notation moment := (f_moment prof sched name clock).
  Notation qlist := (qlist name).
  Notation stored := (@stored M SM).
  Notation arrivals := (fleet_arrivals prof sched name clock).

  (** C107.  [ev] is any endless execution of [N] processes in which, from [n0] on, no process dies and
      every living process has a limit above the number of jobs that dead processes left in the processing
      list.  Timers fire again and again, and each task is polled again and again by its process.  A waiting
      job that is due from some reading of the clocks on, and is neither submitted again nor cancelled, is
      executed, and the execution ends; as long as waiting ids and arrivals are bounded. *)
  Theorem C107_fleet_progress N ev n0 a id j B :
    f_healthy prof sched name clock N ev n0 → f_ticking prof sched name clock N ev → f_polling prof sched name clock N ev n0 →
    (n0 <= a)%nat → id ∈ qlist (f_world (moment N ev a)) Queued → stored (f_world (moment N ev a)) id = Some j →
    (∃ k0, ∀ i k, (k0 <= k)%nat → due j (clock i k)) →
    (∀ n, (a <= n)%nat → ¬ submits id (ev n).2 ∧ (ev n).2 ≠ EvCancel id) →
    Z.of_nat B <= i32_max →
    (∀ d, (length (qlist (f_world (moment N ev a)) Queued) + arrivals (moment N ev a) (map ev (seq a d)) <= B)%nat) →
    ∃ k1 k2, (a <= k1 <= k2)%nat ∧
      (length (f_runs_of id (moment N ev a)) < length (f_runs_of id (moment N ev k1)))%nat ∧
      id ∉ map tid (all_tasks (moment N ev k2)).
  Proof. intros H1 H2 H3. exact (F_progress prof sched name clock N ev n0 H1 H2 H3 a id j B). Qed.

  (** The slots: again and again a tick of a living process finds a free one, though those of the lost
      jobs are never freed. *)
  Theorem C107_slots_free_again N ev n0 n :
    f_healthy prof sched name clock N ev n0 → f_ticking prof sched name clock N ev → f_polling prof sched name clock N ev n0 →
    (n0 <= n)%nat → ∃ k, (n <= k)%nat ∧ (ev k).2 = EvTick ∧ has_slot name (moment N ev k) (ev k).1 = true.
  Proof. intros H1 H2 H3. exact (F_opens_again prof sched name clock N ev n0 H1 H2 H3 n). Qed.

  (** Every task ends. *)
  Theorem C107_tasks_end N ev n0 n i m t :
    f_healthy prof sched name clock N ev n0 → f_polling prof sched name clock N ev n0 →
    (n0 <= n)%nat → f_members (moment N ev n) !! i = Some m → t ∈ m_tasks m →
    ∃ k, (n <= k)%nat ∧ tid t ∉ map tid (all_tasks (moment N ev k)).
  Proof. intros H1 H3. exact (F_completes prof sched name clock N ev n0 H1 H3 n i m t). Qed.
End theorems.
Print Assumptions C107_fleet_progress.
Print Assumptions C107_slots_free_again.
Print Assumptions C107_tasks_end.

(** Process 0 takes "a" and dies; "b" is submitted to process 1, for the 60th millisecond; process 0 starts
    again; from then on both tick and poll for ever.  The clock of process 1 is 100 ms ahead. *)
Definition late_b : job Z := set_ctx (demo_job "b" 1) (set_jtype (ctx (demo_job "b" 1)) (ScheduledAt 60000000)).
Definition two_begin : list (nat * event Z) :=
  [(0, EvStart); (1, EvStart); (0, EvEnqueue (demo_job "a" 1) new_re_run); (0, EvTick); (0, EvCrash);
   (1, EvConfig (WqConfig 1%Z 2)); (1, EvEnqueue late_b new_re_run); (0, EvStart)]%nat.
Definition two (n : nat) : nat * event Z :=
  match two_begin !! n with
  | Some ie => ie
  | None => match (n mod 4)%nat with
            | 0 => (0, EvTick) | 1 => (1, EvTask 0 (demo_ok 1)) | 2 => (1, EvTick) | _ => (0, EvTask 0 (demo_ok 1))
            end%nat
  end.
Definition two_clock (i k : nat) : time := demo_clock (k + 100 * i).
Notation at_two := (f_moment (M := Z) (λ _, Debug) (λ _, demo_sched) "q" two_clock 2 two).

Lemma two_kinds n : (8 <= n)%nat →
  ∃ i, (i < 2)%nat ∧ (two n = (i, EvTick) ∨ two n = (i, EvTask 0 (demo_ok 1))).
Proof.
  intros Hn. unfold two. rewrite lookup_ge_None_2 by (cbn; lia).
  destruct (n mod 4)%nat as [|[|[|k]]]; eexists; (split; [|eauto]); lia.
Qed.
Lemma two_ok n : ok_fleet (λ _, Debug) (λ _, demo_sched) "q" two_clock (fleet_init 2) (map two (seq 0 n)).
Proof.
  assert (Forall (λ ie : nat * event Z, plain_event ie.2) (map two (seq 0 n))) as H.
  { apply list.Forall_forall. intros ie Hie. apply elem_of_list_fmap in Hie as (k & -> & _).
    destruct (decide (k < 8)%nat) as [Hk|Hk].
    - do 8 (destruct k as [|k]; [done|]). lia.
    - destruct (two_kinds k ltac:(lia)) as (i & _ & [-> | ->]); done. }
  generalize (fleet_init (M := Z) 2) as f. induction H as [|[i e] es He _ IH]; intros f; cbn; [done|].
  split; [|apply IH]. destruct e; cbn in *; auto.
Qed.
Definition two_idle (f : fleet Z) : Prop :=
  qlist "q" (f_world f) Queued = [] ∧ ∃ m0 m1, f_members f = [m0; m1] ∧
    m_alive m0 = true ∧ m_alive m1 = true ∧ m_tasks m0 = [] ∧ m_tasks m1 = [] ∧
    max_processing_jobs (m_cfg m0) = 20%nat ∧ max_processing_jobs (m_cfg m1) = 2%nat.
Lemma two_idle_step (f : fleet Z) i e :
  all_at "q" (whole f) → two_idle f → (i < 2)%nat → e = EvTick ∨ e = EvTask 0 (demo_ok 1) →
  two_idle (fleet_step (λ _, Debug) (λ _, demo_sched) "q" two_clock f (i, e)).
Proof.
  intros Ha (Hq & m0 & m1 & Em & A0 & A1 & T0 & T1 & L0 & L1) Hi He.
  assert (∀ L m, m_alive m = true → m_tasks m = [] → max_processing_jobs (m_cfg m) = L →
    idle "q" L (sys_step Debug demo_sched "q" (mem_h (two_clock i)) (seen_by f m) e).1) as Hgen.
  { intros L m Hal Ht HL. apply idle_step; [|by split|destruct He as [->| ->]; eauto].
    intros id. destruct (Ha id) as [p Hp]. exists p. eapply at_perm; [exact Hp|done|].
    unfold whole, all_tasks. cbn. rewrite Em. cbn. by rewrite Ht, T0, T1. }
  unfold fleet_step. cbn [fst snd]. rewrite Em.
  destruct i as [|[|i]]; [..|lia]; cbn [lookup list_lookup insert list_insert].
  - destruct (Hgen 20%nat m0 A0 T0 L0) as (H1 & H2 & H3 & H4). split; [done|]. by eexists _, _.
  - destruct (Hgen 2%nat m1 A1 T1 L1) as (H1 & H2 & H3 & H4). split; [done|]. by eexists _, _.
Qed.
(** From the 26th event on nothing happens. *)
Lemma two_later n : (26 <= n)%nat → two_idle (at_two n).
Proof.
  intros Hn. replace n with (26 + (n - 26))%nat by lia. induction (n - 26)%nat as [|d IH].
  - split; [by vm_compute|].
    destruct (f_members (at_two (26 + 0))) as [|m0 [|m1 [|]]] eqn:E; try (exfalso; revert E; vm_compute; discriminate).
    exists m0, m1. split; [done|]. vm_compute in E. injection E as <- <-. by vm_compute.
  - rewrite Nat.add_succ_r, (F_S (λ _, Debug) (λ _, demo_sched) "q" two_clock).
    destruct (two_kinds (26 + d) ltac:(lia)) as (i & Hi & [-> | ->]).
    all: apply two_idle_step; [apply whole_after, two_ok|exact IH|done|eauto].
Qed.
Definition two_check (n : nat) : bool :=
  match f_members (at_two n) with
  | [m0; m1] =>
      (m_alive m0 || (n <? 8)%nat) && m_alive m1 && match m_tasks m0 with [] => true | _ => false end &&
      forallb (λ t : task Z, String.eqb (tid t) "b") (m_tasks m1) &&
      Nat.eqb (max_processing_jobs (m_cfg m0)) 20 && Nat.eqb (max_processing_jobs (m_cfg m1)) 2
  | _ => false
  end.
Lemma two_checked : forallb two_check (seq 6 20) = true ∧
  match f_members (at_two 25) with [_; m1] => tid <$> m_tasks m1 !! 0%nat | _ => None end = Some "b".
Proof. by vm_compute. Qed.
Lemma two_shape n : (6 <= n)%nat → ∃ m0 m1, f_members (at_two n) = [m0; m1] ∧
  ((8 <= n)%nat → m_alive m0 = true) ∧ m_alive m1 = true ∧ m_tasks m0 = [] ∧
  (∀ t, t ∈ m_tasks m1 → tid t = "b" ∧ (n < 26)%nat) ∧
  max_processing_jobs (m_cfg m0) = 20%nat ∧ max_processing_jobs (m_cfg m1) = 2%nat.
Proof.
  intros Hn. destruct (decide (n < 26)%nat) as [Hlt|Hge].
  - destruct two_checked as [H _]. rewrite forallb_forall in H. specialize (H n).
    rewrite <-elem_of_list_In, elem_of_seq in H. specialize (H ltac:(lia)). unfold two_check in H.
    destruct (f_members (at_two n)) as [|m0 [|m1 [|]]]; try done. exists m0, m1.
    apply andb_true_iff in H as [H H6]. apply andb_true_iff in H as [H H5]. apply andb_true_iff in H as [H H4].
    apply andb_true_iff in H as [H H3]. apply andb_true_iff in H as [H1 H2].
    split; [done|]. split.
    { intros H8. apply orb_true_iff in H1 as [H1|H1]; [done|]. apply Nat.ltb_lt in H1. lia. }
    split; [done|]. split; [by destruct (m_tasks m0)|]. split.
    { intros t Ht. split; [|done]. rewrite forallb_forall in H4. apply String.eqb_eq, H4. by apply elem_of_list_In. }
    split; by apply Nat.eqb_eq.
  - destruct (two_later n ltac:(lia)) as (_ & m0 & m1 & E & A0 & A1 & T0 & T1 & L0 & L1). exists m0, m1.
    split; [done|]. split; [done|]. split; [done|]. split; [done|]. split; [|done].
    intros t Ht. rewrite T1 in Ht. by apply elem_of_nil in Ht.
Qed.
Example C107_healthy : f_healthy (λ _, Debug) (λ _, demo_sched) "q" two_clock 2 two 6.
Proof.
  split; [exact two_ok|]. split.
  - intros n i Hn Hl. destruct (two_shape n Hn) as (m0 & m1 & E & A0 & A1 & _).
    destruct (two_shape (S n) ltac:(lia)) as (m0' & m1' & E' & A0' & A1' & _). unfold lives in *. rewrite E in Hl. rewrite E'.
    assert (i < 2)%nat as Hi.
    { destruct Hl as [(m & Hm & _)|[_ Hi]]; [by apply lookup_lt_Some in Hm|done]. }
    destruct i as [|[|i]]; [..|lia]; [exists m0'|exists m1']; (split; [done|]); [|done].
    apply A0'. destruct (decide (n = 6%nat)) as [->|Hne]; [|lia]. exfalso.
    destruct Hl as [(m & Hm & Hal)|[Hs _]]; [|done].
    assert (match f_members (at_two 6) !! 0%nat with Some m => m_alive m | None => true end = false) as Hd by (by vm_compute).
    rewrite E in Hd. cbn in Hm, Hd. injection Hm as <-. congruence.
  - intros n i m Hn Em _. destruct (two_shape n Hn) as (m0 & m1 & E & _ & _ & _ & _ & L0 & L1). rewrite E in Em.
    assert (length (lost "q" (at_two 6)) = 1%nat) as -> by (by vm_compute).
    destruct i as [|[|i]]; cbn in Em; simplify_eq; lia.
Qed.
Example C107_ticking : f_ticking (λ _, Debug) (λ _, demo_sched) "q" two_clock 2 two.
Proof.
  intros n. exists (4 * (n + 2))%nat, 0%nat. split; [lia|]. split.
  - unfold two. rewrite lookup_ge_None_2 by (cbn; lia). rewrite Nat.mul_comm, Nat.mod_mul by done. done.
  - destruct (two_shape (4 * (n + 2)) ltac:(lia)) as (m0 & m1 & E & A0 & _). exists m0. rewrite E. split; [done|]. apply A0. lia.
Qed.
Lemma two_poll : two 25 = (1%nat, EvTask 0 (demo_ok 1)) ∧
  ∃ m0 m1 t, f_members (at_two 25) = [m0; m1] ∧ m_tasks m1 !! 0%nat = Some t ∧ tid t = "b".
Proof.
  split; [by vm_compute|]. destruct two_checked as [_ Hx]. revert Hx. generalize (f_members (at_two 25)). intros l Hx.
  destruct l as [|m0 [|m1 [|]]]; try done. destruct (m_tasks m1 !! 0%nat) as [t|] eqn:Et; [|done]. injection Hx as Hx.
  exists m0, m1, t. done.
Qed.
Example C107_polling : f_polling (λ _, Debug) (λ _, demo_sched) "q" two_clock 2 two 6.
Proof.
  intros n i m t Hn Em Ht. destruct (two_shape n Hn) as (m0 & m1 & E & _ & _ & T0 & T1 & _). rewrite E in Em.
  destruct i as [|[|i]]; cbn in Em; simplify_eq.
  - rewrite T0 in Ht. by apply elem_of_nil in Ht.
  - destruct (T1 t Ht) as [Hb Hlt]. destruct two_poll as (He & m0' & m1' & t' & E' & Et & Hx).
    exists 25%nat, 0%nat, (demo_ok 1), m1', t'. split; [lia|]. split; [exact He|]. rewrite E'. split; [reflexivity|].
    split; [exact Et|]. by rewrite Hx, Hb.
Qed.
Lemma two_arrivals d : fleet_arrivals (λ _, Debug) (λ _, demo_sched) "q" two_clock (at_two 7) (map two (seq 7 d)) = 0%nat.
Proof.
  destruct (decide (d < 19)%nat) as [Hd|Hd].
  - assert (forallb (λ d, Nat.eqb (fleet_arrivals (λ _, Debug) (λ _, demo_sched) "q" two_clock (at_two 7) (map two (seq 7 d))) 0)
      (seq 0 19) = true) as H by (by vm_compute).
    rewrite forallb_forall in H. specialize (H d). rewrite <-elem_of_list_In, elem_of_seq in H. apply Nat.eqb_eq, H. lia.
  - replace d with (19 + (d - 19))%nat by lia. rewrite seq_app, map_app, (f_arrivals_app (λ _, Debug) (λ _, demo_sched) "q" two_clock).
    rewrite <-(F_add (λ _, Debug) (λ _, demo_sched) "q" two_clock 2 two 7 19).
    assert (fleet_arrivals (λ _, Debug) (λ _, demo_sched) "q" two_clock (at_two 7) (map two (seq 7 19)) = 0%nat) as -> by (by vm_compute).
    rewrite Nat.add_0_l. generalize (d - 19)%nat. intros m. assert (26 <= 7 + 19)%nat as Hk by lia. revert Hk.
    generalize (7 + 19)%nat. induction m as [|m IH]; intros k Hk; [done|]. cbn [seq map fleet_arrivals].
    rewrite <-(F_S (λ _, Debug) (λ _, demo_sched) "q" two_clock). rewrite IH by lia.
    destruct (two_later k Hk) as [E1 _]. destruct (two_later (S k) ltac:(lia)) as [E2 _]. rewrite E1, E2. done.
Qed.
Example C107_case :
  lost "q" (at_two 6) = ["a"] ∧ qlist "q" (f_world (at_two 7)) Queued = ["b"] ∧ f_runs_of "b" (at_two 7) = [] ∧
  (∃ j, stored (M := Z) (f_world (at_two 7)) "b" = Some j ∧ ∃ k0, ∀ i k, (k0 <= k)%nat → due j (two_clock i k)) ∧
  (∀ n, (7 <= n)%nat → ¬ submits "b" (two n).2 ∧ (two n).2 ≠ EvCancel "b") ∧
  ∀ d, (length (qlist "q" (f_world (at_two 7)) Queued) +
        fleet_arrivals (λ _, Debug) (λ _, demo_sched) "q" two_clock (at_two 7) (map two (seq 7 d)) <= 1)%nat.
Proof.
  split; [by vm_compute|]. split; [by vm_compute|]. split; [by vm_compute|]. split; [|split].
  - eexists. split; [by vm_compute|]. exists 61%nat. intros i k Hk. unfold due, two_clock, demo_clock. cbn. lia.
  - intros n Hn. destruct (decide (n = 7%nat)) as [->|Hne]; [split; [by intros H|done]|].
    destruct (two_kinds n ltac:(lia)) as (i & _ & [-> | ->]); (split; [by intros H|done]).
  - intros d. rewrite two_arrivals. apply Nat.leb_le. by vm_compute.
Qed.
(** The execution it predicts: process 1 executes "b", and "a" still has its slot. *)
Example C107_case_executed :
  map jid (f_runs (at_two 22)) = ["b"] ∧ all_tasks (at_two 26) = [] ∧ qlist "q" (f_world (at_two 26)) Running = ["a"].
Proof. by vm_compute. Qed.
