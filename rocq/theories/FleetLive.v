(** A waiting job is taken by some process of a fleet. *)
From Verif Require Import SpecFleetLive JsonFacts BackendFacts WorldFacts MicroFacts LifeFacts HistFacts SubmitFacts LifeProps ListFacts ApiFacts PickFacts WorkersFacts.

Section live.
  Context {M : Type} `{SM : Serde M} {SO : SerdeOk M}.
  Context (prof : nat → profile).
  Context (sched : nat → string → option (time → option time)).
  Context (name : string).
  Context (clock : nat → nat → time).
  Notation stored := (@stored M SM).
  Notation qlist := (qlist name).
  Notation fstep := (fleet_step prof sched name clock).
  Notation frun := (fleet_run prof sched name clock).
  Notation fafter := (fleet_after prof sched name clock).
  Notation ok_fleet := (ok_fleet prof sched name clock).
  Notation at_ := (at_ name).
  Notation all_at := (all_at name).
  Implicit Types f : fleet M.

  Lemma fleet_waits f i e id j :
    all_at (whole f) → ok_fleet_event (f_world f) e → at_ (whole f) id (PQueued j) → ¬ disturbs id e →
    at_ (whole (fstep f (i, e))) id (PQueued j) ∨
    is_tick e ∧ ∃ p, at_ (whole (fstep f (i, e))) id p ∧ ((∃ t, p = PTask t) ∨ ∃ j, p = POrphan j).
  Proof.
    intros Ha Hok Hp Hd. destruct (fleet_life prof sched name clock f i e Hok Ha) as [_ Hl].
    destruct (Hl id _ Hp) as (p' & new & Hp' & Hps & _).
    assert (∀ k p n k' p', psteps (prof i) (sched i) (clock i) id e k p n k' p' →
      (p = PQueued j ∨ (is_tick e ∧ ((∃ t, p = PTask t) ∨ ∃ j, p = POrphan j))) →
      (p' = PQueued j ∨ (is_tick e ∧ ((∃ t, p' = PTask t) ∨ ∃ j, p' = POrphan j)))) as Hind.
    { clear -Hd. intros k p n k' p' Hps. induction Hps as [k p|k p n1 k1 p1 n2 k2 p2 H1 H2 IH]; [done|].
      intros Hp. apply IH. clear IH H2.
      assert (∀ i u, e = EvTask i u → is_tick e → False) as Ht.
      { intros i' u -> [H|H]; done. }
      destruct H1; try (exfalso; apply Hd; subst; (left; done) || (right; done));
        try (destruct Hp as [Hp|[Ht' Hp]]; [|by destruct Hp as [[? ?]|[? ?]]]);
        try discriminate; eauto.
      all: try (destruct Hp as [Hp|[Ht' Hp]]; [discriminate|]; try (exfalso; by eapply Ht); eauto). }
    destruct (Hind _ _ _ _ _ Hps ltac:(by left)) as [->|[Ht Hq]]; [by left|]. right. split; [done|]. by exists p'.
  Qed.

  (** A start is a tick with the default configuration. *)
  Lemma start_is_tick i (w : world) c (ts : list (task M)) rs :
    let st := sys_step (prof i) (sched i) name (mem_h (clock i)) in
    alive (st (Sys w wq_config_default [] true rs) EvTick).1 = true →
    (st (Sys w c ts false rs) EvStart).1 = (st (Sys w wq_config_default [] true rs) EvTick).1.
  Proof.
    cbv zeta. rewrite step_tick by done. cbv zeta. cbn [sys_step alive]. unfold commit. cbn [ev_prog cfg tasks sw runs].
    rewrite run_bind, run_process_jobs. cbv zeta.
    destruct (do_pick _ name _ (max_processing_jobs wq_config_default) w) as [[w' js] o]. cbn [fst snd].
    destruct o; cbn [run fst alive]; rewrite ?app_nil_r; done.
  Qed.

  Lemma whole_nodup f : all_at (whole f) → NoDup (qlist (f_world f) Queued).
  Proof. intros Ha. exact (all_at_nodup name (whole f) Ha). Qed.
  Lemma whole_keyed f : all_at (whole f) → keyed (M := M) (f_world f).
  Proof. intros Ha. exact (all_at_keyed name (whole f) Ha). Qed.

  (** What a step that ticks does: nothing, or a tick as its process sees it. *)
  Lemma tick_cases f i e m :
    is_tick e → f_members f !! i = Some m → all_at (whole f) → fits name (f_world f) →
    (f_world (fstep f (i, e)) = f_world f ∧ (e = EvTick → m_alive m = false)) ∨
    ∃ m' k new, f_world (fstep f (i, e)) = k ∧ f_members (fstep f (i, e)) !! i = Some m' ∧ m_alive m' = true ∧
      (∀ j, j ∈ new → spawn j ∈ m_tasks m') ∧
      qlist (f_world f) Queued ≡ₚ qlist k Queued ++ map jid new ∧
      (∀ id, id ∉ map jid new → stored k id = stored (f_world f) id) ∧
      (reads (f_world f) <= reads k)%nat ∧
      (e = EvTick → length new = (max_processing_jobs (m_cfg m) - length (qlist (f_world f) Running))%nat ∨
         ∀ id, id ∈ qlist k Queued → stored (f_world f) id = None ∨
            ∃ j k', stored (f_world f) id = Some j ∧ (reads (f_world f) <= k')%nat ∧ ¬ due j (clock i k')).
  Proof.
    intros Ht Em Ha Hf. unfold fleet_step. cbn [fst snd]. rewrite Em.
    assert (i < length (f_members f))%nat as Hi by (by eapply lookup_lt_Some).
    assert (∀ s0, alive s0 = true → sw s0 = f_world f →
      e = EvTick ∨ s0 = Sys (f_world f) wq_config_default [] true (f_runs f) →
      (e = EvTick → s0 = seen_by f m) →
      (sys_step (prof i) (sched i) name (mem_h (clock i)) (seen_by f m) e).1 =
      (sys_step (prof i) (sched i) name (mem_h (clock i)) s0 EvTick).1 ∨
      (alive (sys_step (prof i) (sched i) name (mem_h (clock i)) s0 EvTick).1 = true → 
      (sys_step (prof i) (sched i) name (mem_h (clock i)) (seen_by f m) e).1 =
      (sys_step (prof i) (sched i) name (mem_h (clock i)) s0 EvTick).1) → 
      ∃ m' k new, f_world (Fleet (sw (sys_step (prof i) (sched i) name (mem_h (clock i)) (seen_by f m) e).1) (f_members f) (f_runs f)) = k ∧
        m' = Member (cfg (sys_step (prof i) (sched i) name (mem_h (clock i)) (seen_by f m) e).1)
               (tasks (sys_step (prof i) (sched i) name (mem_h (clock i)) (seen_by f m) e).1)
               (alive (sys_step (prof i) (sched i) name (mem_h (clock i)) (seen_by f m) e).1) ∧ m_alive m' = true ∧
      (∀ j, j ∈ new → spawn j ∈ m_tasks m') ∧
      qlist (f_world f) Queued ≡ₚ qlist k Queued ++ map jid new ∧
      (∀ id, id ∉ map jid new → stored k id = stored (f_world f) id) ∧
      (reads (f_world f) <= reads k)%nat ∧
      (e = EvTick → length new = (max_processing_jobs (m_cfg m) - length (qlist (f_world f) Running))%nat ∨
         ∀ id, id ∈ qlist k Queued → stored (f_world f) id = None ∨
            ∃ j k', stored (f_world f) id = Some j ∧ (reads (f_world f) <= k')%nat ∧ ¬ due j (clock i k'))) as Hgen.
    { intros s0 Ha0 Hw0 _ He0 Heq.
      destruct (tick_spec (prof i) (sched i) name (clock i) s0 Ha0) as (new & H1 & H2 & H3 & H4 & H5 & H6 & H7 & H8 & H9 & H10 & H11 & H12).
      { rewrite Hw0. by apply whole_keyed. } { rewrite Hw0. by apply whole_nodup. } { by rewrite Hw0. }
      assert ((sys_step (prof i) (sched i) name (mem_h (clock i)) (seen_by f m) e).1 =
        (sys_step (prof i) (sched i) name (mem_h (clock i)) s0 EvTick).1) as E by (destruct Heq as [?|Heq]; auto).
      rewrite E. eexists _, _, new. split; [reflexivity|]. split; [reflexivity|]. cbn [f_world m_alive m_tasks].
      rewrite Hw0 in *. split; [done|]. split.
      { intros j Hj. rewrite H4. apply elem_of_app. right. by apply elem_of_list_fmap_1. }
      split; [done|]. split; [done|]. split; [done|].
      intros Ee. destruct H12 as [H12|H12].
      - left. rewrite H12. unfold free_slots. rewrite Ha0. specialize (He0 Ee). by subst s0.
      - right. intros id Hin. destruct (H12 id Hin) as [Hl|(j0 & k & E1 & E2 & E3)]; [by left|].
        right. exists j0, k. split; [done|]. split; [lia|]. by apply not_due_ready. }
    destruct (m_alive m) eqn:Eal; destruct Ht as [->| ->].
    - right. destruct (Hgen (seen_by f m)) as (m' & k & new & G1 & G2 & G3); try done; [by left|by left|].
      exists m', k, new. cbn [f_world f_members] in *. split; [done|]. split; [|done].
      subst m'. by apply list_lookup_insert.
    - left. unfold seen_by. rewrite Eal. cbn. split; done.
    - left. unfold seen_by. rewrite Eal. cbn. split; done.
    - right. destruct (Hgen (Sys (f_world f) wq_config_default [] true (f_runs f))) as (m' & k & new & G1 & G2 & G3); try done; [by right| |].
      { right. intros H. unfold seen_by. rewrite Eal. apply start_is_tick, H. }
      exists m', k, new. cbn [f_world f_members] in *. split; [done|]. split; [|done].
      subst m'. by apply list_lookup_insert.
  Qed.

  Lemma fleet_reads f ie : (reads (f_world f) <= reads (f_world (fstep f ie)))%nat.
  Proof.
    unfold fleet_step. destruct (f_members f !! ie.1) as [m|]; [|lia].
    exact (rd_step (prof ie.1) (sched ie.1) name (clock ie.1) (seen_by f m) ie.2).
  Qed.

  Lemma fleet_progress es f id j :
    all_at (whole f) → ok_fleet f es → at_ (whole f) id (PQueued j) →
    (∀ i k, (reads (f_world f) <= k)%nat → due j (clock i k)) →
    Forall (λ ie, ¬ disturbs id ie.2) es →
    Z.of_nat (length (qlist (f_world f) Queued) + fleet_arrivals prof sched name clock f es) <= i32_max →
    (∃ es1 i e es2, es = es1 ++ (i, e) :: es2 ∧ taken_by (frun f (es1 ++ [(i, e)])) i id) ∨
    ((length (qlist (f_world (frun f es)) Queued) + useful_ticks prof sched name clock f es
      <= length (qlist (f_world f) Queued) + fleet_arrivals prof sched name clock f es)%nat ∧
     id ∈ qlist (f_world (frun f es)) Queued).
  Proof.
    revert f. induction es as [|[i e] es IH]; intros f Ha Hok Hp Hdue HE Hmax.
    { right. cbn. split; [lia|]. apply cnt_pos. destruct Hp as [(_ & Hc & _) _]. cbn in Hc. lia. }
    cbn in Hok. destruct Hok as [He Hok]. apply Forall_cons_1 in HE as [HEe HE].
    cbn [SpecFleetLive.useful_ticks SpecFleetLive.fleet_arrivals] in *. cbn [fst snd] in *.
    assert (fits name (f_world f)) as Hfit by (unfold fits; lia).
    assert (∀ m m' new, f_members f !! i = Some m → 
      f_members (fstep f (i, e)) !! i = Some m' → m_alive m' = true →
      (∀ j, j ∈ new → spawn j ∈ m_tasks m') → id ∈ map jid new →
      ∃ es1 i0 e0 es2, (i, e) :: es = es1 ++ (i0, e0) :: es2 ∧ taken_by (frun f (es1 ++ [(i0, e0)])) i0 id) as Htaken.
    { intros m m' new Em Em' Hal Hsp Hin. apply elem_of_list_fmap in Hin as (j' & Hj' & Hin).
      exists [], i, e, es. split; [done|]. exists m', (spawn j'). cbn. split; [done|]. split; [done|].
      split; [by apply Hsp|]. split; [by rewrite Hj'|done]. }
    assert (at_ (whole f) id (PQueued j)) as Hp0 by done.
    assert (id ∈ qlist (f_world f) Queued) as Hin0.
    { apply cnt_pos. destruct Hp0 as [(_ & Hc & _) _]. cbn in Hc. lia. }
    destruct (fleet_waits f i e id j Ha He Hp HEe) as [Hp'|(Ht & p & Hp' & Hpp)].
    2: { left. destruct (f_members f !! i) as [m|] eqn:Em.
      2: { exfalso. unfold fleet_step in Hp'. cbn [fst] in Hp'. rewrite Em in Hp'.
           destruct Hp0 as [(_ & _ & Hr & _) _].
           destruct Hpp as [[t ->]|[j0 ->]]; destruct Hp' as [(_ & _ & Hr' & _) _]; cbn in Hr, Hr'; lia. }
      assert (id ∉ qlist (f_world (fstep f (i, e))) Queued) as Hnin.
      { intros Hc%cnt_pos. destruct Hpp as [[t ->]|[j0 ->]]; destruct Hp' as [(_ & Hq' & _) _]; cbn in Hq'; lia. }
      destruct (tick_cases f i e m Ht Em Ha Hfit) as [[Hw _]|(m' & k & new & <- & Em' & Hal & Hsp & Hperm & _)].
      { by rewrite Hw in Hnin. }
      apply (Htaken m m' new); try done. rewrite Hperm in Hin0. set_solver. }
    destruct (fleet_life prof sched name clock f i e He Ha) as [Ha' _].
    pose proof (fleet_reads f (i, e)) as Hrd.
    assert (id ∈ qlist (f_world (fstep f (i, e))) Queued) as Hin1.
    { apply cnt_pos. destruct Hp' as [(_ & Hc & _) _]. cbn in Hc. lia. }
    destruct (IH (fstep f (i, e))) as [(es1 & i1 & e1 & es2 & -> & Htk)|[H1 H2]]; try done.
    { intros i0 k Hk. apply Hdue. lia. }
    { lia. }
    { left. exists ((i, e) :: es1), i1, e1, es2. split; [done|]. exact Htk. }
    right. split; [|done]. change (frun f ((i, e) :: es)) with (frun (fstep f (i, e)) es).
    enough (match e with EvTick => if has_slot name f i then 1 else 0 | _ => 0 end + length (qlist (f_world (fstep f (i, e))) Queued)
      <= length (qlist (f_world f) Queued) + (length (qlist (f_world (fstep f (i, e))) Queued) - length (qlist (f_world f) Queued)))%nat by lia.
    destruct (match e with EvTick => true | _ => false end) eqn:Et; [|destruct e; done || lia].
    destruct e; try done. clear Et. destruct (has_slot name f i) eqn:Eslot; [|lia].
    unfold has_slot in Eslot. destruct (f_members f !! i) as [m|] eqn:Em; [|done].
    apply andb_prop in Eslot as [Eal Elt]. apply Nat.ltb_lt in Elt.
    destruct (tick_cases f i EvTick m ltac:(by left) Em Ha Hfit) as [[_ Hd]|(m' & k & new & <- & _ & _ & _ & Hperm & Hst & Hrr & Hnew)].
    { specialize (Hd eq_refl). congruence. }
    assert (length new <> 0)%nat as Hn.
    { destruct (Hnew eq_refl) as [Hnew'|Hnew']; [lia|].
      exfalso. destruct Hp0 as [(Hs' & _) _]. cbn in Hs'.
      destruct (Hnew' id Hin1) as [Hs|(j0 & k & Hs & Hk & Hnd)]; [congruence|].
      rewrite Hs' in Hs. injection Hs as <-. apply Hnd, Hdue. lia. }
    apply Permutation_length in Hperm. rewrite app_length, map_length in Hperm.
    set (a := length (qlist (f_world f) Queued)) in *. set (b := length (qlist (f_world (fstep f (i, EvTick))) Queued)) in *. lia.
  Qed.

  Lemma fleet_no_starvation n es0 es id j :
    let f := fafter n es0 in
    ok_fleet (fleet_init n) (es0 ++ es) → id ∈ qlist (f_world f) Queued → stored (f_world f) id = Some j →
    (∀ i k, (reads (f_world f) <= k)%nat → due j (clock i k)) →
    Forall (λ ie, ¬ submits id ie.2 ∧ ie.2 ≠ EvCancel id) es →
    Z.of_nat (length (qlist (f_world f) Queued) + fleet_arrivals prof sched name clock f es) <= i32_max →
    (length (qlist (f_world f) Queued) + fleet_arrivals prof sched name clock f es
       <= useful_ticks prof sched name clock f es)%nat →
    ∃ es1 i e es2, es = es1 ++ (i, e) :: es2 ∧ taken_by (fafter n (es0 ++ es1 ++ [(i, e)])) i id.
  Proof.
    cbv zeta. intros Hok Hin Hs Hdue HE Hmax Hft. apply ok_fleet_app in Hok as [Hok0 Hok].
    pose proof (whole_after prof sched name clock n es0 Hok0) as Ha.
    destruct (all_at_stored name (whole (fafter n es0)) id Ha Hin) as (j0 & Hs0 & Hp).
    cbn in Hs0. unfold fleet_after in *. rewrite Hs0 in Hs. injection Hs as ->.
    destruct (fleet_progress es _ id j Ha Hok Hp Hdue) as [(es1 & i & e & es2 & E & Htk)|[H1 H2]].
    - eapply list.Forall_impl; [exact HE|]. intros ie [He1 He2] [Hd|Hd]; done.
    - done.
    - exists es1, i, e, es2. split; [done|]. unfold fleet_run in *. by rewrite fold_left_app.
    - exfalso. apply elem_of_list_split in H2 as (l1 & l2 & El). rewrite El, app_length in H1. cbn in H1. lia.
  Qed.

  (** *** Slots lost to dead processes *)
  Lemma tick_full i (s : sys world M) :
    (max_processing_jobs (cfg s) <= length (qlist (sw s) Running))%nat → alive s = true →
    (sys_step (prof i) (sched i) name (mem_h (clock i)) s EvTick).1 = s.
  Proof.
    intros Hm Ha. rewrite step_tick by done. unfold do_pick. rewrite (proj2 (Nat.leb_le _ _) Hm). cbn.
    rewrite app_nil_r. destruct s; cbn in *. by subst.
  Qed.

  Definition no_slot (L : nat) f : Prop :=
    all_at (whole f) ∧ Forall (λ m, m_alive m = true → max_processing_jobs (m_cfg m) <= L)%nat (f_members f) ∧
    ∃ lost, NoDup lost ∧ (L <= length lost)%nat ∧ ∀ id, id ∈ lost → ∃ j, at_ (whole f) id (POrphan j).

  Lemma no_slot_full L f : no_slot L f → (L <= length (qlist (f_world f) Running))%nat.
  Proof.
    intros (_ & _ & lost & Hnd & HL & Hl). etransitivity; [exact HL|]. apply submseteq_length, NoDup_submseteq; [done|].
    intros id Hid. destruct (Hl id Hid) as [j [(_ & _ & Hc & _) _]]. apply cnt_pos. cbn in Hc. lia.
  Qed.

  Lemma no_slot_step L f i e : no_slot L f → ok_fleet_event (f_world f) e → up_to L e → no_slot L (fstep f (i, e)).
  Proof.
    intros Hn He Hu. pose proof (no_slot_full L f Hn) as Hfull. destruct Hn as (Ha & Hm & lost & Hnd & HL & Hl).
    destruct (fleet_life prof sched name clock f i e He Ha) as [Ha' Hs]. split; [done|]. split.
    - unfold fleet_step. cbn [fst snd]. destruct (f_members f !! i) as [m|] eqn:Em; [|done].
      cbn [f_members]. apply Forall_insert; [done|]. cbn [m_alive m_cfg].
      pose proof (Forall_lookup_1 _ _ _ _ Hm Em) as Hmi. cbv beta in Hmi.
      set (s := seen_by f m). assert (m_alive m = alive s) as Eal by done. rewrite Eal in Hmi.
      assert (max_processing_jobs (m_cfg m) = max_processing_jobs (cfg s)) as Ec by done. rewrite Ec in Hmi.
      clearbody s. clear -Hu Hmi.
      unfold sys_step. destruct (alive s) eqn:Eal.
      + specialize (Hmi eq_refl).
        assert (∀ r : sys world M * response M, r = commit (prof i) (sched i) name (mem_h (clock i)) s e → e ≠ EvStart →
          alive r.1 = true → (max_processing_jobs (cfg r.1) <= L)%nat) as Hc.
        { intros r -> Hne. unfold commit.
          destruct (run _ (ev_prog _ _ _ _ _ e) (sw s)) as [w o] eqn:Er. destruct o as [[[[c ts] js] r]| |]; cbn; try done.
          intros _. assert (c = match e with EvConfig c => c | _ => cfg s end) as ->.
          2: { destruct e; cbn in Hu; done. }
          destruct e; cbn [ev_prog] in Er; try done.
          all: try (rewrite run_bind in Er; destruct (run _ _ (sw s)) as [w1 [x| |]]; cbn in Er; by simplify_eq).
          - cbn in Er. by simplify_eq.
          - destruct (tasks s !! i0); [|cbn in Er; by simplify_eq].
            rewrite run_bind in Er. destruct (run _ _ (sw s)) as [w1 [[x y]| |]]; cbn in Er; by simplify_eq.
          - cbn in Er. by simplify_eq.
          - cbn in Er. by simplify_eq.
          - cbn in Er. by simplify_eq. }
        destruct e; try done; by eapply Hc.
      + destruct e; cbn [fst]; try (rewrite Eal; done).
        * destruct e; cbn; try rewrite Eal; done.
        * unfold commit. cbn [ev_prog]. rewrite run_bind.
          destruct (run _ _ (sw s)) as [w1 [x| |]]; cbn; done.
    - exists lost. split; [done|]. split; [done|]. intros id Hid. destruct (Hl id Hid) as [j Hj].
      destruct (Hs id _ Hj) as (p' & new & Hp' & Hps & _). exists j.
      assert (∀ k p n k' p', psteps (prof i) (sched i) (clock i) id e k p n k' p' → p = POrphan j → p' = POrphan j) as Hind.
      { clear. intros k p n k' p' Hps. induction Hps as [k p|k p n1 k1 p1 n2 k2 p2 H1 H2 IH]; [done|].
        intros ->. apply IH. inversion H1; subst; try done; intuition (discriminate || congruence || naive_solver). }
      by rewrite (Hind _ _ _ _ _ Hps eq_refl) in Hp'.
  Qed.

  Lemma no_slot_tick L f i e : no_slot L f → is_tick e → up_to L e →
    all_tasks (fstep f (i, e)) ⊆ all_tasks f ∧ f_runs (fstep f (i, e)) = f_runs f.
  Proof.
    intros Hn Ht Hu. pose proof (no_slot_full L f Hn) as Hfull. destruct Hn as (_ & Hm & _).
    unfold fleet_step. cbn [fst snd]. destruct (f_members f !! i) as [m|] eqn:Em; [|done].
    pose proof (Forall_lookup_1 _ _ _ _ Hm Em) as Hmi. cbv beta in Hmi.
    assert (∀ s', tasks s' ⊆ m_tasks m → runs s' = f_runs f →
      all_tasks (Fleet (sw s') (<[i:=Member (cfg s') (tasks s') (alive s')]> (f_members f)) (runs s')) ⊆ all_tasks f ∧
      f_runs (Fleet (sw s') (<[i:=Member (cfg s') (tasks s') (alive s')]> (f_members f)) (runs s')) = f_runs f) as Hgen.
    { intros s' Hts Hrs. split; [|done]. destruct (tasks_split f i m Em) as (o & Ho & Ho').
      intros t. rewrite Ho', Ho. cbn [m_tasks]. set_solver. }
    apply Hgen; clear Hgen; destruct (m_alive m) eqn:Eal; destruct Ht as [->| ->].
    - rewrite tick_full; [done| |done]. cbn. specialize (Hmi eq_refl). lia.
    - unfold seen_by. rewrite Eal. cbn. done.
    - unfold seen_by. rewrite Eal. cbn. done.
    - unfold seen_by. rewrite Eal.
      assert ((sys_step (prof i) (sched i) name (mem_h (clock i)) (Sys (f_world f) wq_config_default [] true (f_runs f)) EvTick).1
        = Sys (f_world f) wq_config_default [] true (f_runs f)) as E.
      { apply tick_full; [|done]. cbn in *. lia. }
      rewrite start_is_tick by (by rewrite E). rewrite E. cbn. set_solver.
    - rewrite tick_full; [done| |done]. cbn. specialize (Hmi eq_refl). lia.
    - unfold seen_by. rewrite Eal. cbn. done.
    - unfold seen_by. rewrite Eal. cbn. done.
    - unfold seen_by. rewrite Eal.
      assert ((sys_step (prof i) (sched i) name (mem_h (clock i)) (Sys (f_world f) wq_config_default [] true (f_runs f)) EvTick).1
        = Sys (f_world f) wq_config_default [] true (f_runs f)) as E.
      { apply tick_full; [|done]. cbn in *. lia. }
      rewrite start_is_tick by (by rewrite E). by rewrite E.
  Qed.

  Lemma at_task_in f id p : at_ (whole f) id p → id ∈ map tid (all_tasks f) ↔ ∃ t, p = PTask t.
  Proof.
    intros Hp. assert (tasks_of id (whole f) = [] ↔ id ∉ map tid (all_tasks f)) as Hiff.
    { unfold tasks_of, whole. cbn [tasks]. generalize (all_tasks f). intros l. clear.
      induction l as [|t l IH]; [set_solver|]. rewrite filter_cons. cbn [map].
      destruct (decide (tid t = id)) as [<-|E]; [split; [done|set_solver]|]. rewrite IH. set_solver. }
    destruct p; try (assert (tasks_of id (whole f) = []) as E by (apply Hp); apply Hiff in E;
      split; [done|intros [? ?]; done]).
    assert (tasks_of id (whole f) = [t]) as E by (apply Hp). split; [eauto|]. intros _.
    destruct (decide (id ∈ map tid (all_tasks f))) as [?|H]; [done|]. apply Hiff in H. congruence.
  Qed.

  Lemma no_slot_idle L f i e id : no_slot L f → ok_fleet_event (f_world f) e → up_to L e →
    id ∉ map tid (all_tasks f) →
    id ∉ map tid (all_tasks (fstep f (i, e))) ∧ f_runs_of id (fstep f (i, e)) = f_runs_of id f.
  Proof.
    intros Hn He Hu Hid. assert (is_tick e ∨ ¬ is_tick e) as [Ht|Ht].
    { destruct e; (by left; left) || (by left; right) || (right; intros [?|?]; done). }
    - destruct (no_slot_tick L f i e Hn Ht Hu) as [H1 H2]. unfold f_runs_of. rewrite H2. split; [|done].
      intros (t & -> & Hin)%elem_of_list_fmap. apply Hid. apply elem_of_list_fmap. eauto.
    - destruct Hn as (Ha & _). destruct (fleet_life prof sched name clock f i e He Ha) as [_ Hs].
      destruct (Ha id) as [p Hp]. destruct (Hs id p Hp) as (p' & new & Hp' & Hps & Hr).
      assert (∀ k p n k' p', psteps (prof i) (sched i) (clock i) id e k p n k' p' →
        (∀ t, p ≠ PTask t) → (∀ t, p' ≠ PTask t) ∧ n = []) as Hind.
      { clear -Ht. intros k p n k' p' Hps. induction Hps as [k p|k p n1 k1 p1 n2 k2 p2 H1 H2 IH]; [done|].
        intros Hp. assert ((∀ t, p1 ≠ PTask t) ∧ n1 = []) as [Hp1 ->]; [|by apply IH].
        destruct H1; try done; try (by exfalso; eapply Hp). }
      destruct (Hind _ _ _ _ _ Hps) as [H1 ->].
      { intros t ->. apply Hid. apply (at_task_in f id _ Hp). eauto. }
      rewrite Hr, app_nil_r. split; [|done]. intros (t & Et)%(at_task_in _ id _ Hp'). by eapply H1.
  Qed.

  Lemma fleet_stuck L n es0 es lost :
    let f := fafter n es0 in let f' := fafter n (es0 ++ es) in
    ok_fleet (fleet_init n) (es0 ++ es) →
    NoDup lost → (∀ id, id ∈ lost → id ∈ qlist (f_world f) Running ∧ id ∉ map tid (all_tasks f)) →
    (L <= length lost)%nat →
    (∀ m, m ∈ f_members f → m_alive m = true → max_processing_jobs (m_cfg m) <= L)%nat →
    Forall (λ ie, up_to L ie.2) es →
    ∀ id, id ∉ map tid (all_tasks f) → id ∉ map tid (all_tasks f') ∧ f_runs_of id f' = f_runs_of id f.
  Proof.
    cbv zeta. intros Hok Hnd Hl HL Hm HE. apply ok_fleet_app in Hok as [Hok0 Hok].
    pose proof (whole_after prof sched name clock n es0 Hok0) as Ha.
    unfold fleet_after, fleet_run in *. rewrite fold_left_app. fold frun in *.
    assert (no_slot L (frun (fleet_init n) es0)) as Hn.
    { split; [done|]. split; [by apply list.Forall_forall|]. exists lost. split; [done|]. split; [done|].
      intros id Hid. destruct (Hl id Hid) as [Hr Ht]. destruct (Ha id) as [p Hp].
      apply cnt_pos in Hr. destruct p as [|j|j|t|j|j].
      1,2,3,6: exfalso; assert (cnt id (qlist (sw (whole (frun (fleet_init n) es0))) Running) = 0%nat) as E by (apply Hp);
        cbn [sw whole] in E; unfold fleet_run in *; lia.
      - exfalso. apply Ht. apply (at_task_in _ id _ Hp). eauto.
      - by exists j. }
    unfold fleet_run in Hn. revert Hn Hok. generalize (fold_left fstep es0 (fleet_init n)) as f. clear -HE SO.
    induction es as [|[i e] es IH]; intros f Hn Hok id Hid; [done|].
    apply Forall_cons_1 in HE as [Hu HE]. cbn in Hok. destruct Hok as [He Hok].
    destruct (no_slot_idle L f i e id Hn He Hu Hid) as [H1 H2]. cbn [fold_left]. rewrite <-H2.
    apply IH; try done. by apply no_slot_step.
  Qed.
End live.
