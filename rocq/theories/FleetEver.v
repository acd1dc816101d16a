(** Fleets whose waiting lists fit one batch, and cron jobs without limits on them. *)
From Verif Require Import SpecFleetFair JsonFacts BackendFacts WorldFacts MicroFacts LifeFacts HistFacts SubmitFacts
  LifeProps ListFacts ApiFacts PickFacts StarveFacts CrashFacts LiveFacts SpecShort ShortFacts SpecEver EverFacts
  WorkersFacts FleetLive FleetFair.
Open Scope Z_scope.

Section short.
  Context {M : Type} `{SM : Serde M} {SO : SerdeOk M}.
  Context (prof : nat → profile).
  Context (sched : nat → string → option (time → option time)).
  Context (name : string).
  Context (clock : nat → nat → time).
  Notation stored := (@stored M SM).
  Notation qlist := (qlist name).
  Notation fstep := (fleet_step prof sched name clock).
  Notation at_ := (at_ name).
  Notation all_at := (all_at name).
  Notation lives := SpecFleetFair.lives.
  Implicit Types f : fleet M.

  (** A step of a fleet brings a waiting id nearer to the end of the list, or keeps it. *)
  Lemma fleet_behind f i e id j :
    dead_empty f → ok_fleet_event (f_world f) e →
    (lives f i ∨ e = EvStart ∧ (i < length (f_members f))%nat → lives (fstep f (i, e)) i) →
    all_at (whole f) → at_ (whole f) id (PQueued j) →
    (∀ i k, (reads (f_world f) <= k)%nat → due j (clock i k)) →
    (is_tick e → (length (qlist (f_world f) Queued) <= 20)%nat) →
    at_ (whole (fstep f (i, e))) id (PQueued j) →
    (behind id (qlist (f_world (fstep f (i, e))) Queued) <= behind id (qlist (f_world f) Queued))%nat ∧
    (opens name f (i, e) →
      behind id (qlist (f_world (fstep f (i, e))) Queued) < behind id (qlist (f_world f) Queued))%nat.
  Proof.
    intros Hde Hok Hl Ha Hp Hdue Hlen Hp'. destruct (f_members f !! i) as [m|] eqn:Em.
    2: { unfold fleet_step, opens, has_slot. cbn [fst snd]. rewrite Em. split; [done|]. by intros [_ ?]. }
    destruct (sees prof sched name clock [] f i e m Em) as [E|(o & c & e' & Ho & Hx)];
      [exact (Forall_lookup_1 _ _ _ _ Hde Em)|done| | |].
    { intros [H|H]; apply Hl; [left; by exists m|right]. split; [done|by eapply lookup_lt_Some]. }
    { rewrite E. split; [done|]. intros Hop. exfalso. 
      pose proof (opens_read prof sched name clock f (i, e) id Hop Ha) as Hr. rewrite E in Hr.
      assert (is_tick e) as Ht by (left; by destruct Hop). specialize (Hlen Ht).
      assert (fits name (f_world f)) as Hf by (unfold fits, i32_max; lia). specialize (Hr Hf).
      assert (id ∈ qlist (f_world f) Queued) as Hin. { apply cnt_pos. destruct Hp as [(_ & Hc & _) _]. cbn in Hc. lia. }
      specialize (Hr Hin). lia. }
    cbv zeta in Hx. set (s := Sys _ _ _ _ _) in *. destruct Hx as (Hc & Hoe & Hal & Hw & Hr & Ht & Hcase).
    assert (tasks s ≡ₚ tasks (whole f)) as Hpm by (cbn; by rewrite Ho).
    assert (is_tick e' → is_tick e) as Htick.
    { destruct Hcase as [(_ & _ & ->)|(_ & -> & _)]; [|by right]. destruct e; intros [?|?]; (done || (by left) || by right). }
    pose proof (behind_step (prof i) (sched i) name (clock i) s e' id j) as Hb.
    assert (all_at s) as Has by (by eapply all_at_perm).
    assert (at_ s id (PQueued j)) as Hps by (eapply at_perm; [exact Hp|done|exact Hpm]).
    specialize (Hb Has Hoe Hps (Hdue i) (λ H, Hlen (Htick H))).
    assert (at_ (sys_step (prof i) (sched i) name (mem_h (clock i)) s e').1 id (PQueued j)) as Hp1.
    { eapply at_perm; [exact Hp'|by rewrite Hw|]. by rewrite <-Ht. }
    specialize (Hb Hp1). rewrite Hw in Hb. cbn [s sw] in Hb. split; [lia|].
    intros [He Hs]. cbn [fst snd] in He, Hs. subst e. unfold has_slot in Hs. rewrite Em in Hs.
    apply andb_prop in Hs as [Hm Hlt]. apply Nat.ltb_lt in Hlt.
    destruct Hcase as [(_ & -> & ->)|(_ & ? & _)]; [|done]. cbn [shift] in Hb. unfold free_slots in Hb. cbn in Hb. lia.
  Qed.

  Section run.
    Context (N : nat) (ev : nat → nat * event M) (n0 : nat).
    Notation F n := (f_moment prof sched name clock N ev n).
    Context (Hh : f_healthy prof sched name clock N ev n0).
    Context (Hticks : f_ticking prof sched name clock N ev).
    Context (Hpolls : f_polling prof sched name clock N ev n0).
    Context (a : nat) (id : string) (Ha : (n0 <= a)%nat).
    Context (Hd : ∀ n, (a <= n)%nat → ¬ submits id (ev n).2 ∧ (ev n).2 ≠ EvCancel id).
    Context (Hshort : ∀ n, (a <= n)%nat → is_tick (ev n).2 → (length (qlist (f_world (F n)) Queued) <= 20)%nat).
    Notation F_S := (F_S prof sched name clock N ev).
    Notation F_at := (F_at prof sched name clock N ev n0 Hh).

    Lemma S_step n j : (a <= n)%nat → at_ (whole (F n)) id (PQueued j) →
      at_ (whole (F (S n))) id (PQueued j) ∨ ∃ i, taken_by (F (S n)) i id.
    Proof.
      intros Hn Hp. rewrite F_S. pose proof (F_event prof sched name clock N ev n0 Hh n) as He.
      specialize (Hd n Hn). specialize (Hshort n Hn). pose proof (F_at n) as Hat.
      destruct (ev n) as [i e]. cbn [fst snd] in *.
      assert (¬ disturbs id e) as Hdis by (intros [?|?]; naive_solver).
      destruct (fleet_waits prof sched name clock (F n) i e id j Hat He Hp Hdis) as [H|[Ht _]]; [by left|].
      destruct (waits_or_taken prof sched name clock (F n) i e id j Hat He Hp Hdis) as [H|H]; [|by left|right; by exists i].
      specialize (Hshort Ht). unfold fits, i32_max. lia.
    Qed.
    Lemma S_waits n j d : (a <= n)%nat → at_ (whole (F n)) id (PQueued j) →
      at_ (whole (F (n + d)%nat)) id (PQueued j) ∨ ∃ k i, (n <= k)%nat ∧ taken_by (F (S k)) i id.
    Proof.
      intros Hn Hp. induction d as [|d [IH|IH]]; [left; by rewrite Nat.add_0_r| |by right].
      rewrite Nat.add_succ_r. destruct (S_step (n + d)%nat j ltac:(lia) IH) as [H|[i H]]; [by left|].
      right. exists (n + d)%nat, i. split; [lia|done].
    Qed.
    Lemma S_reads n j K : (a <= n)%nat → at_ (whole (F n)) id (PQueued j) →
      (∃ k i, (n <= k)%nat ∧ taken_by (F (S k)) i id) ∨
      ∃ m, (n <= m)%nat ∧ (K <= reads (f_world (F m)))%nat ∧ at_ (whole (F m)) id (PQueued j).
    Proof.
      intros Hn Hp. induction K as [|K [IH|(m & Hm & HK & IH)]]; [right; exists n; split; [done|split; [lia|done]]|by left|].
      destruct (F_opens_again prof sched name clock N ev n0 Hh Hticks Hpolls m ltac:(lia)) as (k & Hk & Ho).
      destruct (S_waits m j (k - m) ltac:(lia) IH) as [Hw|(k' & i & Hk' & Hw)]; [|left; exists k', i; split; [lia|done]].
      replace (m + (k - m))%nat with k in Hw by lia.
      destruct (S_step k j ltac:(lia) Hw) as [Hw'|[i Hw']]; [|left; exists k, i; split; [lia|done]].
      right. exists (S k). split; [lia|]. split; [|done].
      assert (reads (f_world (F k)) < reads (f_world (F (S k))))%nat.
      { rewrite F_S. apply (opens_read prof sched name clock (F k) (ev k) id); try done; [apply F_at| |].
        - assert (is_tick (ev k).2) as Ht by (left; apply Ho). specialize (Hshort k ltac:(lia) Ht). unfold fits, i32_max. lia.
        - apply cnt_pos. destruct Hw as [(_ & Hc & _) _]. cbn in Hc. lia. }
      pose proof (F_reads_le prof sched name clock N ev n0 a 0 Ha m (k - m)) as Hle.
      replace (m + (k - m))%nat with k in Hle by lia. lia.
    Qed.
    Lemma S_behind n j d : (a <= n)%nat → at_ (whole (F n)) id (PQueued j) →
      (∀ i k, (reads (f_world (F n)) <= k)%nat → due j (clock i k)) →
      (∃ k i, (n <= k)%nat ∧ taken_by (F (S k)) i id) ∨
      at_ (whole (F (n + d)%nat)) id (PQueued j) ∧
      (behind id (qlist (f_world (F (n + d)%nat)) Queued) <= behind id (qlist (f_world (F n)) Queued))%nat.
    Proof.
      intros Hn Hp Hdue. induction d as [|d [IH|[IH1 IH2]]]; [right; by rewrite Nat.add_0_r|by left|].
      rewrite Nat.add_succ_r. destruct (S_step (n + d)%nat j ltac:(lia) IH1) as [H|[i H]];
        [|left; exists (n + d)%nat, i; split; [lia|done]].
      right. split; [done|]. rewrite F_S in H |- *. rewrite (surjective_pairing (ev (n + d)%nat)) in H |- *.
      destruct (fleet_behind (F (n + d)%nat) (ev (n + d)%nat).1 (ev (n + d)%nat).2 id j) as [H1 _]; try done.
      - apply F_dead_empty.
      - apply (F_event prof sched name clock N ev n0 Hh).
      - apply (F_lives' prof sched name clock N ev n0 Hh). lia.
      - apply F_at.
      - intros i k Hk. apply Hdue. pose proof (F_reads_le prof sched name clock N ev n0 a 0 Ha n d). lia.
      - apply Hshort. lia.
      - lia.
    Qed.
    Lemma S_taken n j : (a <= n)%nat → at_ (whole (F n)) id (PQueued j) →
      (∀ i k, (reads (f_world (F n)) <= k)%nat → due j (clock i k)) →
      ∃ k i, (n <= k)%nat ∧ taken_by (F (S k)) i id.
    Proof.
      remember (behind id (qlist (f_world (F n)) Queued)) as b eqn:Eb. revert n Eb.
      induction (lt_wf b) as [b _ IH]. intros n Eb Hn Hp Hdue.
      destruct (F_opens_again prof sched name clock N ev n0 Hh Hticks Hpolls n ltac:(lia)) as (k & Hk & Ho).
      destruct (S_behind n j (k - n) Hn Hp Hdue) as [H|[Hw Hb]]; [done|].
      replace (n + (k - n))%nat with k in * by lia.
      destruct (S_step k j ltac:(lia) Hw) as [Hw'|[i Hw']]; [|exists k, i; split; [lia|done]].
      assert (∀ i k', (reads (f_world (F k)) <= k')%nat → due j (clock i k')) as Hdue'.
      { intros i k' Hk'. apply Hdue. pose proof (F_reads_le prof sched name clock N ev n0 a 0 Ha n (k - n)) as Hle.
        replace (n + (k - n))%nat with k in Hle by lia. lia. }
      destruct (IH (behind id (qlist (f_world (F (S k))) Queued))) with (n := S k) as (k' & i & Hk' & H); try done; try lia.
      - pose proof Hw' as H. rewrite F_S in H |- *. rewrite (surjective_pairing (ev k)) in H |- *.
        destruct (fleet_behind (F k) (ev k).1 (ev k).2 id j) as [_ H1]; try done.
        + apply F_dead_empty.
        + apply (F_event prof sched name clock N ev n0 Hh).
        + apply (F_lives' prof sched name clock N ev n0 Hh). lia.
        + apply F_at.
        + apply Hshort. lia.
        + rewrite <-surjective_pairing in H1 |- *. specialize (H1 Ho). lia.
      - intros i k' Hk'. apply Hdue'. rewrite F_S in Hk'. pose proof (fleet_reads prof sched name clock (F k) (ev k)). lia.
      - exists k', i. split; [lia|done].
    Qed.
    Lemma S_progress n j : (a <= n)%nat → at_ (whole (F n)) id (PQueued j) →
      (∃ k0, ∀ i k, (k0 <= k)%nat → due j (clock i k)) →
      ∃ k1 k2, (n <= k1 <= k2)%nat ∧ (length (f_runs_of id (F n)) < length (f_runs_of id (F k1)))%nat ∧
        id ∉ map tid (all_tasks (F k2)).
    Proof.
      intros Hn Hp [k0 Hdue].
      assert (∃ k i, (n <= k)%nat ∧ taken_by (F (S k)) i id) as (k & i & Hk & Htk).
      { destruct (S_reads n j k0 Hn Hp) as [H|(m & Hm & Hk & Hp')]; [done|].
        destruct (S_taken m j ltac:(lia) Hp') as (k & i & Hk' & H); [intros i k Hk'; apply Hdue; lia|].
        exists k, i. split; [lia|done]. }
      destruct (F_taken prof sched name clock N ev n0 Hh Hpolls (S k) i id ltac:(lia) Htk) as (k1 & k2 & Hk1 & Hr & Hno).
      exists k1, k2. split; [lia|]. split; [|done].
      pose proof (F_runs_le prof sched name clock N ev n0 Hh id n (S k - n)) as Hle.
      replace (n + (S k - n))%nat with (S k) in Hle by lia. lia.
    Qed.
    (** Nobody loses the job. *)
    Lemma S_kept n j d p : (a <= n)%nat → at_ (whole (F n)) id (PQueued j) → at_ (whole (F (n + d)%nat)) id p → orphan p = false.
    Proof.
      intros Hn Hq Hp. destruct p as [|j'|j'|t|j'|j']; try done. exfalso.
      assert (∀ m, tasks_of id (wide (fakes name (F n0)) (F m)) =
        filter (λ t : task M, tid t = id) (fakes name (F n0)) ++ tasks_of id (whole (F m))) as E.
      { intros m. unfold tasks_of. cbn. by rewrite list.filter_app. }
      destruct (F_wide prof sched name clock N ev n0 Hh n ltac:(lia)) as [W1 _]. destruct (W1 id) as [p Hw].
      assert (filter (λ t : task M, tid t = id) (fakes name (F n0)) = []) as E0.
      { pose proof (E n) as En. destruct Hq as [(_ & Hc & _) _]. cbn in Hc.
        destruct p as [|j1|j1|t|j1|j1].
        2: { assert (tasks_of id (wide (fakes name (F n0)) (F n)) = []) as E1 by apply Hw. rewrite E1 in En. by destruct (filter _ _). }
        all: exfalso; assert (cnt id (qlist (sw (wide (fakes name (F n0)) (F n))) Queued) = 0%nat) as E1 by apply Hw; cbn in E1; lia. }
      destruct (F_wide prof sched name clock N ev n0 Hh (n + d) ltac:(lia)) as [_ W2].
      apply (W2 id).
      - cbn. apply cnt_pos. destruct Hp as [(_ & _ & Hr & _) _]. cbn in Hr. lia.
      - rewrite E, E0. by destruct Hp as [(_ & _ & _ & Ht) _].
    Qed.
  End run.
End short.

Section ever.
  Context {M : Type} `{SM : Serde M} {SO : SerdeOk M}.
  Context (prof : nat → profile).
  Context (sched : string → option (time → option time)).
  Context (name : string).
  Context (clock : nat → nat → time).
  Notation sch := (λ _ : nat, sched).
  Notation stored := (@stored M SM).
  Notation qlist := (qlist name).
  Notation at_ := (at_ name).
  Context (N : nat) (ev : nat → nat * event M) (n0 : nat).
  Notation F n := (f_moment prof sch name clock N ev n).
  Context (Hh : f_healthy prof sch name clock N ev n0).
  Context (Hticks : f_ticking prof sch name clock N ev).
  Context (Hpolls : f_polling prof sch name clock N ev n0).
  Context (a : nat) (id : string) (Ha : (n0 <= a)%nat).
  Context (Hd : ∀ n, (a <= n)%nat → ¬ submits id (ev n).2 ∧ (ev n).2 ≠ EvCancel id).
  Context (Hshort : ∀ n, (a <= n)%nat → is_tick (ev n).2 → (length (qlist (f_world (F n)) Queued) <= 20)%nat).

  Lemma E_lives n d p : (a <= n)%nat → at_ (whole (F n)) id p → EverFacts.lives sched p →
    ∃ p', at_ (whole (F (n + d)%nat)) id p' ∧ EverFacts.lives sched p'.
  Proof.
    intros Hn Hp Hl. induction d as [|d (p1 & H1 & H2)]; [exists p; by rewrite Nat.add_0_r|].
    rewrite Nat.add_succ_r, (F_S prof sch name clock), (surjective_pairing (ev (n + d)%nat)).
    destruct (fleet_life prof sch name clock (F (n + d)%nat) (ev (n + d)%nat).1 (ev (n + d)%nat).2) as [_ Hlife].
    { apply (F_event prof sch name clock N ev n0 Hh). }
    { apply (F_at prof sch name clock N ev n0 Hh). }
    destruct (Hlife id p1 H1) as (p' & new & G1 & G2 & _). exists p'. split; [done|].
    by destruct (psteps_lives _ _ _ _ _ _ _ _ _ _ (Hd (n + d)%nat ltac:(lia)) G2 H2).
  Qed.
  Lemma E_again j (Hclock : ∀ t, ∃ k0, ∀ i k, (k0 <= k)%nat → t < clock i k) :
    at_ (whole (F a)) id (PQueued j) → without_end sched j → ∀ K,
    ∃ n j, (a <= n)%nat ∧ at_ (whole (F n)) id (PQueued j) ∧ without_end sched j ∧ (K <= length (f_runs_of id (F n)))%nat.
  Proof.
    intros Hp Hj K. induction K as [|K (n & j1 & Hn & Hp1 & Hj1 & IH)]; [exists a, j; split; [done|]; split; [done|]; split; [done|lia]|].
    destruct (S_progress prof sch name clock N ev n0 Hh Hticks Hpolls a id Ha Hd Hshort n j1 Hn Hp1) as (k1 & k2 & Hk & Hr & Hno).
    { destruct Hj1 as (x & sl & m & cc & f & H1 & H2 & H3 & _). destruct (Hclock sl) as [k0 Hk0]. exists k0. intros i k Hk.
      unfold due. rewrite H1, H2, H3. specialize (Hk0 i k Hk). split; [lia|done]. }
    destruct (E_lives n (k2 - n) (PQueued j1) Hn Hp1 Hj1) as (p & Hp2 & Hl2).
    pose proof (S_kept prof sch name clock N ev n0 Hh a id Ha n j1 (k2 - n) p Hn Hp1 Hp2) as Ho.
    replace (n + (k2 - n))%nat with k2 in * by lia.
    pose proof (F_runs_le prof sch name clock N ev n0 Hh id k1 (k2 - k1)) as Hle. replace (k1 + (k2 - k1))%nat with k2 in Hle by lia.
    destruct p as [|j2|j2|t|j2|j2]; try done.
    - exists k2, j2. split; [lia|]. split; [done|]. split; [done|]. lia.
    - exfalso. apply Hno. apply (at_task_in name (F k2) id _ Hp2). eauto.
  Qed.
End ever.

Section close.
  Context {M : Type} `{SM : Serde M} {SO : SerdeOk M}.
  Context (prof : nat → profile).
  Context (name : string).
  Context (clock : nat → nat → time).
  Notation stored := (@stored M SM).
  Lemma fleet_short (sched : nat → string → option (time → option time)) N ev n0 a id j :
    let F := f_moment prof sched name clock N ev in
    f_healthy prof sched name clock N ev n0 → f_ticking prof sched name clock N ev → f_polling prof sched name clock N ev n0 →
    (n0 <= a)%nat → id ∈ qlist name (f_world (F a)) Queued → stored (f_world (F a)) id = Some j →
    (∃ k0, ∀ i k, (k0 <= k)%nat → due j (clock i k)) →
    (∀ n, (a <= n)%nat → ¬ submits id (ev n).2 ∧ (ev n).2 ≠ EvCancel id) →
    (∀ n, (a <= n)%nat → is_tick (ev n).2 → (length (qlist name (f_world (F n)) Queued) <= 20)%nat) →
    ∃ k1 k2, (a <= k1 <= k2)%nat ∧ (length (f_runs_of id (F a)) < length (f_runs_of id (F k1)))%nat ∧
      id ∉ map tid (all_tasks (F k2)).
  Proof.
    cbv zeta. intros H1 H2 H3 Ha Hin Hs Hdue Hd Hsh.
    destruct (all_at_stored name _ id (F_at prof sched name clock N ev n0 H1 a) Hin) as (j0 & Hs0 & Hp).
    cbn in Hs0. rewrite Hs0 in Hs. injection Hs as ->.
    exact (S_progress prof sched name clock N ev n0 H1 H2 H3 a id Ha Hd Hsh a j ltac:(lia) Hp Hdue).
  Qed.
  Lemma fleet_again (sched : string → option (time → option time)) N ev n0 a id j :
    let F := f_moment prof (λ _, sched) name clock N ev in
    f_healthy prof (λ _, sched) name clock N ev n0 → f_ticking prof (λ _, sched) name clock N ev →
    f_polling prof (λ _, sched) name clock N ev n0 →
    (n0 <= a)%nat → id ∈ qlist name (f_world (F a)) Queued → stored (f_world (F a)) id = Some j →
    without_end sched j → (∀ t, ∃ k0, ∀ i k, (k0 <= k)%nat → t < clock i k) →
    (∀ n, (a <= n)%nat → ¬ submits id (ev n).2 ∧ (ev n).2 ≠ EvCancel id) →
    (∀ n, (a <= n)%nat → is_tick (ev n).2 → (length (qlist name (f_world (F n)) Queued) <= 20)%nat) →
    ∀ K, ∃ n, (a <= n)%nat ∧ (K <= length (f_runs_of id (F n)))%nat.
  Proof.
    cbv zeta. intros H1 H2 H3 Ha Hin Hs He Hclock Hd Hsh K.
    destruct (all_at_stored name _ id (F_at prof (λ _, sched) name clock N ev n0 H1 a) Hin) as (j0 & Hs0 & Hp).
    cbn in Hs0. rewrite Hs0 in Hs. injection Hs as ->.
    destruct (E_again prof sched name clock N ev n0 H1 H2 H3 a id Ha Hd Hsh j Hclock Hp He K) as (n & j' & Hn & _ & _ & H).
    by exists n.
  Qed.
End close.
