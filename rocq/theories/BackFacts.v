(** Bringing a job back by calls of the API. *)
From Verif Require Import CrashFacts SpecBack JsonFacts BackendFacts WorldFacts MicroFacts LifeFacts HistFacts SubmitFacts
  PickFacts StarveFacts ApiFacts AnyFacts.

Section back.
  Context {M : Type} `{SM : Serde M} {SO : SerdeOk M}.
  Context (prof : profile).
  Context (sched : string → option (time → option time)).
  Context (name : string).
  Context (clock : nat → time).
  Notation h := (mem_h clock).
  Notation sys := (Sys.sys world M).
  Notation qlist := (qlist name).
  Notation stored := (@stored M SM).
  Notation step := (sys_step prof sched name h).
  Notation go := (sys_run prof sched name h).

  Lemma poll_spawned (s : sys) i (j : job M) u :
    alive s = true → tasks s !! i = Some (spawn j) → is_cancelled j = false →
    let s' := (step s (EvTask i u)).1 in
    alive s' = true ∧ tasks s' = <[i := Task j j Hooked]> (tasks s) ∧ runs s' = runs s.
  Proof.
    intros Ha Hi Hc. cbv zeta. unfold sys_step. rewrite Ha. unfold commit. cbn [ev_prog]. rewrite Hi.
    unfold task_step. cbn [spawn t_phase t_job t_orig]. rewrite Hc. cbn. by rewrite app_nil_r.
  Qed.
  Lemma poll_hooked (s : sys) i (j : job M) u :
    alive s = true → tasks s !! i = Some (Task j j Hooked) →
    let s' := (step s (EvTask i u)).1 in
    alive s' = true ∧ runs s' = runs s ++ [set_ctx j (set_run_count (ctx j) (S (run_count (ctx j))))].
  Proof.
    intros Ha Hi. cbv zeta. unfold sys_step. rewrite Ha. unfold commit. cbn [ev_prog]. rewrite Hi. done.
  Qed.

  Lemma serve (s : sys) id (r : job M) d u :
    alive s = true → (∀ k j, stored (sw s) k = Some j → jid j = k) →
    Z.of_nat (length (qlist (sw s) Queued)) <= i32_max →
    id ∈ qlist (sw s) Queued → stored (sw s) id = Some r →
    (∀ k, (reads (sw s) <= k)%nat → due r (clock k)) →
    let c := WqConfig d (S (length (qlist (sw s) Running) + length (qlist (sw s) Queued))) in
    ∃ i, let z := go s (wait_for c i u) in
      alive z = true ∧ ∃ x, runs_of id z = runs_of id s ++ [x] ∧ jid x = id ∧ data x = data r.
  Proof.
    intros Ha Hk Hf Hin Hr Hd c.
    set (s1 := Sys (sw s) c (tasks s) true (runs s)).
    destruct (any_tick prof sched name clock s1 eq_refl Hk Hf) as (new & G1 & G2 & G3 & G4 & G5 & G6 & G7 & G8 & G9 & G10).
    set (s2 := (step s1 EvTick).1) in *. cbn [sw s1] in *.
    assert (id ∈ map jid new) as Hnew.
    { destruct (decide (id ∈ map jid new)) as [|Hn]; [done|]. exfalso.
      rewrite G6 in Hin. apply elem_of_app in Hin as [Hin|Hin]; [|done].
      destruct G10 as [G|G].
      - apply Permutation_length in G6. rewrite app_length, map_length in G6.
        unfold free_slots in G. cbn [alive s1 cfg sw max_processing_jobs c] in G. lia.
      - destruct (G id Hin) as [[Hl|(j0 & k & Hl1 & Hl2 & Hl3)]|Hl]; [congruence| |done].
        rewrite Hr in Hl1. injection Hl1 as <-. specialize (Hd k ltac:(lia)). apply due_ready in Hd. congruence. }
    apply elem_of_list_fmap in Hnew as (j' & Hid & Hj').
    destruct (G9 j' Hj') as (r0 & k & P1 & P2 & _). rewrite <-Hid, Hr in P1. injection P1 as <-.
    assert (spawn j' ∈ tasks s2) as Ht. { rewrite G3. apply elem_of_app. right. by apply elem_of_list_fmap_1. }
    apply elem_of_list_lookup in Ht as [i Hi].
    assert (alive s2 = true) as Ha2.
    { unfold s2. rewrite (step_tick prof sched name clock s1 eq_refl).
      destruct (do_pick _ _ _ _ _) as [[w' js] [[]| |]] eqn:Ep; [done|..].
      all: exfalso; unfold s2 in Hi; rewrite (step_tick prof sched name clock s1 eq_refl), Ep in Hi; cbn in Hi; by rewrite lookup_nil in Hi. }
    exists i. cbv zeta. unfold wait_for, sys_run. cbn [fold_left].
    rewrite (step_config prof sched name clock s c Ha). fold s1. fold s2.
    destruct (poll_spawned s2 i j' u Ha2 Hi) as (Q1 & Q2 & Q3).
    { rewrite P2. done. }
    set (s3 := (step s2 (EvTask i u)).1) in *.
    destruct (poll_hooked s3 i j' u Q1) as (R1 & R2).
    { rewrite Q2. apply list_lookup_insert. by eapply lookup_lt_Some. }
    split; [done|]. eexists. unfold runs_of. rewrite R2, Q3, G2, list.filter_app.
    rewrite filter_cons_True by (by rewrite Hid). cbn [runs s1]. rewrite filter_nil. split; [done|].
    split; [by rewrite Hid|]. by rewrite P2.
  Qed.

  Lemma way_back (s : sys) (j : job M) d u :
    sound s → status_of s (jid j) ≠ Some Running →
    Z.of_nat (S (length (qlist (sw s) Queued))) <= i32_max →
    (∀ j' k, read_back j j' → due j' (clock k)) →
    ∃ c i, process_tick_duration c = d ∧
      let z := go s (rescue j c i u) in
      alive z = true ∧ ∃ x, runs_of (jid j) z = runs_of (jid j) s ++ [x] ∧ jid x = jid j ∧ data x = data j.
  Proof.
    intros (Ha & Hk & Ht) Hst Hf Hd. set (id := jid j) in *.
    set (w1 := do_cancel (M := M) name clock (sw s) id).
    destruct (only_cancel name clock (sw s) id Hk) as [[O1 _] OR]. fold w1 in O1, OR. specialize (O1 Hk).
    assert (match stored w1 id with Some ex => is_done ex = true | None => True end) as Hex.
    { unfold w1, do_cancel. unfold status_of in Hst.
      destruct (stored (sw s) id) as [ex|] eqn:Ex; [|by rewrite Ex].
      destruct (is_queued ex) eqn:Eq.
      - rewrite stored_rem, stored_save. change (jid (can ex (now_ms clock (sw s)))) with (jid ex).
        rewrite (Hk _ _ Ex), bool_decide_true by done. by destruct ex as [[]].
      - rewrite Ex. unfold is_queued in Eq. unfold is_done. cbn in Hst. destruct (jstatus (ctx ex)); done. }
    assert (length (qlist w1 Queued) <= length (qlist (sw s) Queued))%nat as Hl1.
    { unfold w1, do_cancel. destruct (stored (sw s) id) as [ex|]; [|done]. destruct (is_queued ex); [|done].
      rewrite qlist_rem, bool_decide_true by done. rewrite qlist_save, qlist_tick. apply filter_length. }
    set (w2 := do_run name clock w1 j (EnqueueConfig true true)).
    destruct (only_run sched name clock w1 j (EnqueueConfig true true)) as [[O2 _] _]. fold w2 in O2. specialize (O2 O1).
    assert (∃ w1', w2 = do_enqueue name clock w1' j ∧ qlist w1' Queued = qlist w1 Queued) as (w1' & Hw2 & Hq1).
    { unfold w2, do_run. fold id. destruct (stored w1 id) as [ex|]; [|by exists w1].
      rewrite Hex. cbn [re_run override_data andb]. destruct (negb (is_running ex)); eexists; (split; [done|]); [apply qlist_put|done]. }
    set (s2 := Sys w2 (cfg s) (tasks s) true (runs s)).
    assert (qlist (sw s2) Queued = id :: qlist w1 Queued) as Hq2.
    { cbn [sw s2]. rewrite Hw2, qlist_do_enqueue, bool_decide_true by done. by rewrite Hq1. }
    assert (∃ r, stored (sw s2) id = Some r ∧ data r = data j ∧ ∀ k, due r (clock k)) as (r & Hr1 & Hr2 & Hr3).
    { cbn [sw s2]. rewrite Hw2, stored_do_enqueue, bool_decide_true by done. eexists. split; [done|]. split; [by destruct j as [[]]|].
      intros k. pose proof (Hd (norm_job j) k (read_back_norm j)) as HH.
      unfold due in HH |- *. destruct j as [[? [] ? ? ? ? ? ? ? ?] ?]; exact HH. }
    destruct (serve s2 id r d u) as (i & Hz & x & Hx).
    - done.
    - exact O2.
    - rewrite Hq2. cbn [length]. lia.
    - rewrite Hq2. by left.
    - done.
    - intros k _. apply Hr3.
    - exists (WqConfig d (S (length (qlist (sw s2) Running) + length (qlist (sw s2) Queued)))), i.
      split; [reflexivity|]. cbv zeta. unfold rescue, sys_run. cbn [fold_left].
      rewrite (step_cancel prof sched name clock s (jid j) Ha). cbn [fst].
      rewrite step_enqueue by done. cbn [fst sw cfg tasks runs]. fold id. fold w1. fold w2. fold s2.
      split; [exact Hz|]. exists x. destruct Hx as (X1 & X2 & X3). split; [exact X1|]. split; [done|by rewrite X3].
  Qed.
  Lemma waiting_back (s : sys) id (r : job M) d u :
    sound s → Z.of_nat (length (qlist (sw s) Queued)) <= i32_max →
    id ∈ qlist (sw s) Queued → stored (sw s) id = Some r →
    (∀ k, (reads (sw s) <= k)%nat → due r (clock k)) →
    ∃ c i, process_tick_duration c = d ∧
      let z := go s (wait_for c i u) in
      alive z = true ∧ ∃ x, runs_of id z = runs_of id s ++ [x] ∧ jid x = id ∧ data x = data r.
  Proof.
    intros (Ha & Hk & Ht) Hf Hin Hr Hd. destruct (serve s id r d u Ha Hk Hf Hin Hr Hd) as (i & Hz).
    exists (WqConfig d (S (length (qlist (sw s) Running) + length (qlist (sw s) Queued)))), i.
    split; [reflexivity|exact Hz].
  Qed.
  Lemma no_way_out (s : sys) id es :
    (∀ k j, stored (sw s) k = Some j → jid j = k) → (∀ t, t ∈ tasks s → sound_task t) →
    in_limbo name s id → in_limbo name (go s es) id ∧ runs_of id (go s es) = runs_of id s.
  Proof.
    intros Hk Ht (H1 & H2 & H3). unfold status_of in H1. destruct (stored (sw s) id) as [r|] eqn:Er; [|done]. injection H1 as H1.
    assert (OrphanFacts.OS name id r False s) as HO.
    { split.
      - split; [done|]. split; [done|]. split; [by apply is_running_status|]. done.
      - apply list.Forall_forall. intros t Hin. destruct (Ht t Hin) as [E _].
        assert (tid t ≠ id) as Hne. { intros <-. apply H3. apply elem_of_list_fmap_1, Hin. }
        unfold OrphanFacts.other_task. rewrite E. done. }
    destruct (OrphanFacts.orphan_run prof sched name clock id r False s es HO) as [[(_ & K1 & K2 & _ & K3) K4] K5].
    split; [|exact K5]. split; [|split; [done|]].
    - unfold status_of. rewrite K1. cbn. f_equal. exact H1.
    - intros Hin. apply elem_of_list_fmap in Hin as (t & -> & Ht'). rewrite list.Forall_forall in K4.
      by destruct (K4 t Ht') as [? _].
  Qed.
  Lemma back_iff (s : sys) (j : job M) :
    sound s → jid j ∉ map tid (tasks s) →
    Z.of_nat (S (length (qlist (sw s) Queued))) <= i32_max →
    (∀ j' k, read_back j j' → due j' (clock k)) →
    (∀ r k, stored (sw s) (jid j) = Some r → jstatus (ctx r) = Running → (reads (sw s) <= k)%nat → due r (clock k)) →
    (∃ es, (length (runs_of (jid j) s) < length (runs_of (jid j) (go s es)))%nat) ↔ ¬ in_limbo name s (jid j).
  Proof.
    intros Hs Hnt Hf Hd Hdr. split.
    - intros [es Hes] Hl. destruct (no_way_out s (jid j) es) as [_ E]; [apply Hs..|done|]. rewrite E in Hes. lia.
    - intros Hl. assert (∀ l x, length l < length (l ++ [x : job M]))%nat as Hlen by (intros; rewrite app_length; cbn; lia).
      pose (u := UserResult (data j) false (DefaultRetryAt false)).
      destruct (decide (status_of s (jid j) = Some Running)) as [Hst|Hst].
      + assert (jid j ∈ qlist (sw s) Queued) as Hin.
        { destruct (decide (jid j ∈ qlist (sw s) Queued)) as [|Hn]; [done|]. exfalso. by apply Hl. }
        unfold status_of in Hst. destruct (stored (sw s) (jid j)) as [r|] eqn:Er; [|done]. injection Hst as Hst.
        destruct (waiting_back s (jid j) r 0 u Hs) as (c & i & _ & _ & x & E & _); [lia|done..|by eauto|].
        exists (wait_for c i u). rewrite E. apply Hlen.
      + destruct (way_back s j 0 u Hs Hst Hf Hd) as (c & i & _ & _ & x & E & _).
        exists (rescue j c i u). rewrite E. apply Hlen.
  Qed.
End back.
