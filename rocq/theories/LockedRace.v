(** Races of processes that do not pick at the same time. *)
From Verif Require Import Spec SpecRace SpecLocked BackendFacts WorldFacts LifeFacts RaceFacts RaceList LockedCore LockedFacts.

Section race.
  Context {M : Type} `{SM : Serde M}.
  Context (prof : nat → profile).
  Context (sched : nat → string → option (time → option time)).
  Context (name : string).
  Context (clock : nat → nat → time).
  Context (lim : option nat) (ex : bool) (Hlim : le_lim lim (max_processing_jobs wq_config_default)).
  Notation rstep := (race_step prof sched (λ _, name) (λ i, mem_h (clock i))).
  Notation step_of := (step_of prof sched (λ _, name)).
  Implicit Types p : proc M.
  Implicit Types r : race M world.
  Implicit Types t : task M.
  Implicit Types ts : list (task M).

  Definition task_ok t : Prop := jid (t_job t) = tid t ∧ jstatus (ctx (t_job t)) = Running.
  Definition keeps p (e : event M) (g : ghost) : Prop :=
    sub (in_work p) (g_run g) ∧
    match g_mode g with
    | Idle => True
    | Picks _ _ => match e with EvTick | EvStart => True | _ => False end
    | Cancels => match e with EvCancel _ => True | _ => False end
    end ∧
    (ex = true → match g_mode g with Picks _ _ => True | _ => sub (g_run g) (map tid (p_tasks p)) end).
  Definition done_ok (res : step_result (M := M)) (g : ghost) : Prop :=
    sub (map tid res.1.1.2) (g_run g) ∧ Forall task_ok res.1.1.2 ∧ le_lim lim (max_processing_jobs res.1.1.1) ∧
    (ex = true → sub (g_run g) (map tid res.1.1.2)).
  Notation safe i := (safe (M := M) name (clock i) lim ex i).
  Definition free p : ghost := G (map tid (p_tasks p)) [] Idle.
  Definition pinv (i : nat) p (g : ghost) : Prop :=
    le_lim lim (max_processing_jobs (p_cfg p)) ∧ (ex = true → p_alive p = false → p_tasks p = []) ∧
    match p_now p with
    | None => g = free p ∧ Forall task_ok (p_tasks p)
    | Some (e, c) => keeps p e g ∧ safe i (keeps p e) c g done_ok
    end.
  Definition rinv (K : list string) r : Prop :=
    ∃ gs, length gs = length (r_procs r) ∧ inv (M := M) name lim ex K (r_world r) gs ∧
      ∀ i p g, r_procs r !! i = Some p → gs !! i = Some g → pinv i p g.

  (** *** Lists of tasks *)
  Lemma sub_refl l : sub l l.
  Proof. by intros x. Qed.
  Lemma sub_nil l : sub [] l.
  Proof. intros x. rewrite cnt_nil. lia. Qed.
  Lemma sub_trans l l' l'' : sub l l' → sub l' l'' → sub l l''.
  Proof. intros H1 H2 x. specialize (H1 x). specialize (H2 x). lia. Qed.
  Lemma sub_filter (P : task M → Prop) `{∀ t, Decision (P t)} ts : sub (map tid (filter P ts)) (map tid ts).
  Proof.
    induction ts as [|t ts IH]; intros x; [done|]. rewrite filter_cons. specialize (IH x).
    destruct (decide (P t)); cbn [map]; rewrite ?cnt_cons; lia.
  Qed.
  Lemma tasks_perm ts k t : ts !! k = Some t → map tid ts ≡ₚ tid t :: map tid (delete k ts).
  Proof.
    intros H. rewrite <-(take_drop_middle ts k t H) at 1. rewrite delete_take_drop, !map_app. cbn.
    by rewrite Permutation_middle.
  Qed.
  Lemma sub_delete ts k : sub (map tid (delete k ts)) (map tid ts).
  Proof.
    intros x. destruct (ts !! k) as [t|] eqn:E.
    - rewrite (cnt_perm x _ _ (tasks_perm ts k t E)), cnt_cons. lia.
    - rewrite delete_take_drop, map_app, <-map_app. rewrite take_ge, drop_ge by (apply lookup_ge_None in E; lia).
      by rewrite app_nil_r.
  Qed.
  Lemma in_work_delete p k t : p_tasks p !! k = Some t → t_phase t = AfterHook →
    sub (in_work p) (map tid (delete k (p_tasks p))).
  Proof.
    intros H Ht. unfold in_work. eapply sub_trans; [|apply sub_filter with (P := λ t, t_phase t ≠ AfterHook)].
    intros x. rewrite <-(take_drop_middle _ k t H) at 1. rewrite delete_take_drop, !list.filter_app, filter_cons.
    rewrite decide_False by (by intros H'). done.
  Qed.
  Lemma tid_insert ts k t t' : ts !! k = Some t → tid t' = tid t → map tid (<[k := t']> ts) = map tid ts.
  Proof.
    intros H E. change (map tid (<[k := t']> ts)) with (tid <$> <[k := t']> ts). rewrite list_fmap_insert, E.
    apply list_insert_id. by rewrite list_lookup_fmap, H.
  Qed.
  Lemma in_work_sub p : sub (in_work p) (map tid (p_tasks p)).
  Proof. apply sub_filter. Qed.

  (** *** Steps *)
  Lemma idle_keeps p e o : keeps p e (G (map tid (p_tasks p)) o Idle).
  Proof. split; [apply in_work_sub|]. split; [done|]. by intros _ x. Qed.

  Lemma safe_tick fuel i p e c ts :
    match e with EvTick | EvStart => True | _ => False end →
    le_lim lim (max_processing_jobs c) → sub (map tid ts) (map tid (p_tasks p)) → Forall task_ok ts →
    (ex = true → sub (map tid (p_tasks p)) (map tid ts)) →
    safe i (keeps p e) (let! ts' := do_tick prof (λ _, name) fuel i c ts in Ret (c, ts', [], RNone))
      (G (map tid (p_tasks p)) [] (Picks [] 0)) done_ok.
  Proof.
    intros He Hc Hs Hts Hx. apply safe_bind. unfold do_tick. eapply safe_then.
    { eapply (safe_pick (prof i) name (clock i) lim ex i (keeps p e) (map tid (p_tasks p))).
      - intros l o b n. split; [|split; [by destruct e|done]]. intros x. cbn [g_run]. rewrite cnt_app. pose proof (in_work_sub p x). lia.
      - done.
      - exact Hc. }
    intros [js|er] g Hg.
    - destruct Hg as [Hg Hf].
      assert (map tid (ts ++ map (λ j : job M, Task j j Spawned) js) = map tid ts ++ map jid js) as Ets.
      { rewrite map_app, map_map. by change (map (λ j : job M, tid (Task j j Spawned)) js) with (map jid js). }
      split; [|split; [|split; [done|]]]; cbn -[map app].
      + intros x. rewrite Ets, (cnt_perm x _ _ Hg), !cnt_app. specialize (Hs x). lia.
      + apply Forall_app. split; [done|]. apply Forall_map. eapply list.Forall_impl; [exact Hf|]. by intros j Hj.
      + intros E x. rewrite Ets, (cnt_perm x _ _ Hg), !cnt_app. specialize (Hx E x). lia.
    - destruct Hg as [E Hg]. split; [|split; [done|split; [done|by rewrite E]]]. cbn. eapply sub_trans; [exact Hs|exact Hg].
  Qed.
  Lemma safe_task i p k u :
    le_lim lim (max_processing_jobs (p_cfg p)) → Forall task_ok (p_tasks p) →
    safe i (keeps p (EvTask k u))
      (ev_prog (prof i) (sched i) name (p_cfg p) (p_tasks p) (EvTask k u)) (free p) done_ok.
  Proof.
    intros Hc Hts. cbn [ev_prog]. destruct (p_tasks p !! k) as [t|] eqn:Ek.
    2: { split; [apply sub_refl|]. split; [done|]. split; [done|]. intros _. apply sub_refl. }
    pose proof (Forall_lookup_1 _ _ _ _ Hts Ek) as [Hj Hst].
    assert (∀ t', task_ok t' → tid t' = tid t → ∀ js, done_ok (p_cfg p, <[k := t']> (p_tasks p), js, RNone) (free p)) as Hput.
    { intros t' Ht' E js. split; [|split; [|split; [done|intros _]]]; cbn.
      - rewrite (tid_insert _ k t t') by done. apply sub_refl.
      - by apply Forall_insert.
      - rewrite (tid_insert _ k t t') by done. apply sub_refl. }
    assert (∀ g js, given ex (map tid (delete k (p_tasks p))) g →
      done_ok (p_cfg p, delete k (p_tasks p), js, RNone) g) as Hdel.
    { intros g js [Hg Hx]. split; [done|]. split; [|by split]. by apply Forall_delete. }
    assert (keeps p (EvTask k u) (free p)) as HK by apply idle_keeps.
    unfold task_step. destruct (t_phase t) eqn:Ep.
    - destruct (is_cancelled (t_job t)) eqn:Ec.
      + unfold is_cancelled in Ec. rewrite Hst in Ec. by apply bool_decide_eq_true in Ec.
      + apply safe_bind, safe_bind. apply nt_safe; [done|]. split; [done|]. intros x _. by apply Hput.
    - apply safe_bind. by apply Hput.
    - apply safe_bind, safe_bind. apply nt_safe; [done|]. split; [done|]. intros x _. by apply Hput.
    - apply safe_bind, safe_bind. pose proof (in_work_delete p k t Ek Ep) as Hw. eapply safe_mono.
      2: { apply (safe_task_tail (prof i) (sched i) name (clock i) lim ex i _ (tid t) (map tid (delete k (p_tasks p)))); try done.
           - intros g Hg. split; [|split; [by destruct Hg as [-> _]|]].
             + eapply sub_trans; [exact Hw|]. by eapply holds_sub.
             + intros _. destruct Hg as [-> [[Hg _]| ->]]; [|apply sub_delete]. intros x.
               by rewrite (cnt_perm x _ _ Hg), (cnt_perm x _ _ (tasks_perm _ _ _ Ek)).
           - intros g [Hg Hx] Hm. unfold keeps. rewrite Hm. split; [|split; [done|]]; [eapply sub_trans; [exact Hw|exact Hg]|].
             intros E. eapply sub_trans; [by apply Hx|]. apply sub_delete.
           - split; [done|]. left. split; [by apply tasks_perm|done]. }
      intros a g Hg. cbn. by apply Hdel.
  Qed.
  (** What a process holds when it begins a step. *)
  Definition begin_ghost p (e : event M) : ghost :=
    match e with
    | EvTick | EvStart => G (map tid (p_tasks p)) [] (Picks [] 0)
    | EvCancel _ => G (map tid (p_tasks p)) [] Cancels
    | EvEnqueue j _ => G (map tid (p_tasks p)) [jid j] Idle
    | _ => free p
    end.
  Lemma safe_begin fuel i p e :
    le_lim lim (max_processing_jobs (p_cfg p)) → Forall task_ok (p_tasks p) →
    match e with
    | EvRetry _ => False
    | EvConfig c => le_lim lim (max_processing_jobs c)
    | EvPanic | EvCrash | EvCrashIn _ _ => ex = false
    | EvStart => ex = true → p_tasks p = []
    | _ => True
    end →
    keeps p e (begin_ghost p e) ∧
    safe i (keeps p e) (step_of fuel i (p_cfg p) (p_tasks p) e) (begin_ghost p e) done_ok.
  Proof.
    intros Hc Hts He. assert (keeps p e (begin_ghost p e)) as HK.
    { split; [destruct e; apply in_work_sub|]. split; [by destruct e|]. intros _. destruct e; try done; apply sub_refl. }
    split; [done|].
    assert (∀ g a, g_run g = map tid (p_tasks p) → done_ok (p_cfg p, p_tasks p, [], a) g) as Hsame.
    { intros g a E. split; [cbn; rewrite E; apply sub_refl|]. split; [done|]. split; [done|]. intros _. cbn. rewrite E. apply sub_refl. }
    destruct e as [j ec|id|id|id|c| |k u| | |e' n|]; try done; cbn [step_of begin_ghost Race.step_of ev_prog] in *.
    - eapply safe_then; [apply safe_run; try done; by apply idle_keeps|]. intros r g Hg. by apply Hsame.
    - eapply safe_then; [by apply safe_cancel|]. intros r g ->. by apply Hsame.
    - eapply safe_then; [by apply safe_get|]. intros r g ->. by apply Hsame.
    - split; [apply sub_refl|]. split; [done|]. split; [done|]. intros _. apply sub_refl.
    - apply safe_tick; try done; intros; apply sub_refl.
    - by apply safe_task.
    - split; [apply sub_nil|]. split; [constructor|]. split; [done|]. by rewrite He.
    - split; [apply sub_nil|]. split; [constructor|]. split; [done|]. by rewrite He.
    - split; [apply sub_nil|]. split; [constructor|]. split; [done|]. by rewrite He.
    - apply safe_tick; try done; [apply sub_nil|]. intros E. rewrite (He E). apply sub_refl.
  Qed.

  (** *** Races *)
  Lemma rinv_put K r i p gs g g' :
    length gs = length (r_procs r) → (∀ i p g, r_procs r !! i = Some p → gs !! i = Some g → pinv i p g) →
    gs !! i = Some g → pinv i p g' →
    ∀ w' rs as_, inv (M := M) name lim ex K w' (<[i := g']> gs) → rinv K (Race w' (<[i := p]> (r_procs r)) rs as_).
  Proof.
    intros Hlen Hp Hg Hp' w' rs as_ Hi. exists (<[i := g']> gs). split; [cbn [r_procs]; by rewrite !insert_length|]. split; [done|].
    intros k pk gk. cbn. intros [(<- & <- & _)|[Hne H1]]%list_lookup_insert_Some H2.
    - rewrite list_lookup_insert in H2 by (by eapply lookup_lt_Some). by injection H2 as <-.
    - rewrite list_lookup_insert_ne in H2 by done. by apply Hp.
  Qed.
  Lemma gone_inv i p : le_lim lim (max_processing_jobs (p_cfg p)) → pinv i (gone p) (G [] [] Idle).
  Proof. intros H. split; [done|]. split; [done|]. split; [done|constructor]. Qed.
  Lemma inv_weaken K w gs i g g' :
    inv (M := M) name lim ex K w gs → gs !! i = Some g → sub (g_run g') (g_run g) → (ex = true → sub (g_run g) (g_run g')) → g_out g' = [] → g_mode g' = Idle →
    inv (M := M) name lim ex K w (<[i := g']> gs).
  Proof.
    intros [Hc Hk] Hg Hs Hx Ho Hm. split; [|done]. eapply core_weaken; [done|done|exact Hs| |exact Hx|by left].
    intros x. rewrite Ho, cnt_nil. lia.
  Qed.

  Definition allowed (K : list string) r (x : race_event M) : Prop :=
    no_retry_job x ∧ (∀ id, begun_id x = Some id → id ∉ K) ∧
    match lim with Some m => limited m x ∧ counts_ok r x | None => True end ∧
    (ex = true → no_failure prof sched name clock r x).
  Definition more (K : list string) (x : race_event M) : list string :=
    match begun_id x with Some id => id :: K | None => K end.

  Lemma no_death K r x i p :
    allowed K r x → r_procs r !! i = Some p → up p → r_procs (rstep r x) !! i = Some (gone p) → ex = true → False.
  Proof.
    intros (_ & _ & _ & Ha) Hp Hu Hg E. destruct (Ha E) as [_ H]. destruct (H i p Hp Hu) as (p' & H1 & [H2|H2]); simplify_eq; done.
  Qed.
  Lemma down_held i p g : pinv i p g → ¬ up p → ex = true → g = G [] [] Idle.
  Proof.
    intros (_ & Ht & Hn) Hu E. unfold up in Hu. destruct (p_now p) as [[? ?]|]; [exfalso; by auto|]. destruct Hn as [-> _].
    unfold free. destruct (p_alive p) eqn:Ea; [exfalso; by auto|]. by rewrite (Ht E eq_refl).
  Qed.
  Lemma up_dec p : up p ∨ ¬ up p.
  Proof.
    unfold up. destruct (p_alive p); [by left; left|]. destruct (p_now p); [left; by right|right]. by intros [?|?].
  Qed.
  (** A process that disappears. *)
  Lemma rinv_gone K K' r x i p :
    allowed K r x → rinv K' r → r_procs r !! i = Some p → rstep r x = put r i (gone p) → rinv K' (put r i (gone p)).
  Proof.
    intros Ha (gs & Hlen & Hi & Hp) Ep Estep.
    destruct (lookup_lt_is_Some_2 gs i) as [g Hg]. { rewrite Hlen. by eapply lookup_lt_Some. }
    pose proof (Hp i p g Ep Hg) as Hpi. pose proof Hpi as [Hcfg _].
    apply (rinv_put _ r i (gone p) gs g (G [] [] Idle)); try done; [by apply gone_inv|].
    eapply inv_weaken; try done; [apply sub_nil|]. intros E. destruct (up_dec p) as [Hu|Hu].
    - exfalso. eapply (no_death K r x i p); try done. rewrite Estep. cbn. apply list_lookup_insert. by eapply lookup_lt_Some.
    - rewrite (down_held i p g Hpi Hu E). apply sub_nil.
  Qed.

  Lemma rinv_begin K r i e n p :
    rinv K r → allowed K r (RBegin i e n) → r_procs r !! i = Some p →
    locked (rstep r (RBegin i e n)) → rinv (more K (RBegin i e n)) (rstep r (RBegin i e n)).
  Proof.
    intros Hr Ha Ep Hlock. pose proof Hr as (gs & Hlen & Hi & Hp). pose proof Ha as (Ha1 & Ha2 & Ha3 & _).
    assert (rstep r (RBegin i e n) = put r i (race_begin prof sched (λ _, name) n i p e)) as Estep by (cbn [race_step]; by rewrite Ep).
    cbn [race_step] in Hlock |- *. rewrite Ep in Hlock |- *.
    destruct (lookup_lt_is_Some_2 gs i) as [g Hg]. { rewrite Hlen. by eapply lookup_lt_Some. }
    pose proof (Hp i p g Ep Hg) as (Hcfg & Htk & Hpi).
    assert (inv (M := M) name lim ex (more K (RBegin i e n)) (r_world r) gs) as Hmore.
    { destruct Hi as [Hc Hk]. split; [|done]. eapply core_known; [exact Hc|]. intros id Hid. unfold more.
      destruct (begun_id _); [by right|done]. }
    assert (rinv (more K (RBegin i e n)) (put r i p)) as Hsame.
    { apply (rinv_put _ r i p gs g g); try done; by rewrite list_insert_id. }
    assert (rstep r (RBegin i e n) = put r i (gone p) → rinv (more K (RBegin i e n)) (put r i (gone p))) as Hgone.
    { intros E. eapply (rinv_gone K _ r (RBegin i e n)); try done. by exists gs. }
    unfold race_begin in *. destruct (p_now p) as [[e0 c0]|] eqn:En; [done|]. destruct Hpi as [-> Hts].
    assert (∀ b, b = p_alive p → match e with EvPanic | EvCrash | EvCrashIn _ _ => False | EvStart => b = false | _ => True end →
      locked (put r i (Proc (p_cfg p) (p_tasks p) b (Some (e, step_of n i (p_cfg p) (p_tasks p) e)))) →
      rinv (more K (RBegin i e n))
        (put r i (Proc (p_cfg p) (p_tasks p) b (Some (e, step_of n i (p_cfg p) (p_tasks p) e))))) as Hgo.
    { intros b Hb Hbe Hl.
      destruct (safe_begin n i p e Hcfg Hts) as [HK Hs].
      { destruct e; first [done|intros E; apply (Htk E); congruence|unfold le_lim; destruct lim; [|done]; by destruct Ha3]. }
      apply (rinv_put _ r i _ gs (free p) (begin_ghost p e)); try done.
      { split; [done|]. split; [|done]. cbn. rewrite Hb. exact Htk. }
      assert (i < length (r_procs r))%nat as Hilt by by eapply lookup_lt_Some.
      assert (∀ k gk, gs !! k = Some gk → k ≠ i →
        match e with
        | EvTick | EvStart => g_mode gk = Idle
        | EvCancel _ => match g_mode gk with Picks _ _ => False | _ => True end
        | _ => True
        end) as Hothers.
      { intros k gk Hgk Hki. destruct (lookup_lt_is_Some_2 (r_procs r) k) as [pk Hpk].
        { rewrite <-Hlen. by eapply lookup_lt_Some. }
        destruct (Hp k pk gk Hpk Hgk) as (_ & _ & Hpk2).
        assert (match g_mode gk with Idle => True | Picks _ _ => picks pk | Cancels => cancelling pk end) as Hm.
        { unfold picks, cancelling. destruct (p_now pk) as [[ek ck]|]; [|by destruct Hpk2 as [-> _]].
          destruct Hpk2 as [(_ & Hm & _) _]. destruct (g_mode gk); [done|by destruct ek|by destruct ek]. }
        pose proof (Hl i k) as Hl1. pose proof (Hl k i) as Hl2. cbn in Hl1, Hl2.
        rewrite list_lookup_insert, list_lookup_insert_ne in Hl1, Hl2 by done.
        specialize (Hl1 _ _ eq_refl Hpk). specialize (Hl2 _ _ Hpk eq_refl). cbn in Hl1, Hl2.
        destruct e; try done; destruct (g_mode gk); try done; exfalso; apply Hki; first [apply Hl2; by auto|symmetry; apply Hl1; by auto]. }
      destruct Hi as [Hc Hk]. split; [|done].
      destruct e as [j ec|id|id|id|c| |k u| | |e' n'|]; try done; cbn [begin_ghost more begun_id] in *;
        try (by apply (core_same _ _ _ _ _ _ _ _ Hc)).
      - apply (core_submit lim ex K _ _ gs i (free p)); try done. by apply Ha2.
      - apply (core_begin lim ex K _ _ gs i (free p)); [done|done|by right|]. intros k gk Hgk Hki.
        specialize (Hothers k gk Hgk Hki). cbn in Hothers. by destruct (g_mode gk).
      - apply (core_begin lim ex K _ _ gs i (free p)); [done|done|by left|]. intros k gk Hgk Hki.
        specialize (Hothers k gk Hgk Hki). cbn in Hothers. by rewrite Hothers.
      - apply (core_begin lim ex K _ _ gs i (free p)); [done|done|by left|]. intros k gk Hgk Hki.
        specialize (Hothers k gk Hgk Hki). cbn in Hothers. by rewrite Hothers. }
    destruct (p_alive p) eqn:Ea, e; try done; try (by apply Hsame); try (by apply Hgone); by apply Hgo.
  Qed.

  Lemma rinv_call K r i f :
    rinv K r → allowed K r (RCall i f) → rinv K (rstep r (RCall i f)).
  Proof.
    intros Hr Ha0. pose proof Ha0 as (_ & _ & Ha & Hnf). pose proof Hr as (gs & Hlen & Hi & Hp).
    assert (∀ p, r_procs r !! i = Some p → rstep r (RCall i f) = race_call (λ i, mem_h (clock i)) r i f p) as Estep.
    { intros p Ep. cbn [race_step]. by rewrite Ep. }
    cbn [race_step]. destruct (r_procs r !! i) as [p|] eqn:Ep; [|done]. specialize (Estep p eq_refl).
    destruct (lookup_lt_is_Some_2 gs i) as [g Hg]. { rewrite Hlen. by eapply lookup_lt_Some. }
    pose proof (Hp i p g Ep Hg) as (Hcfg & Htk & Hpi).
    assert (rstep r (RCall i f) = put r i (gone p) → rinv K (put r i (gone p))) as Hgone.
    { intros E. by eapply (rinv_gone K _ r (RCall i f)). }
    unfold race_call in *. destruct (p_now p) as [[e c]|] eqn:En; [|done]. destruct Hpi as [HK Hs].
    destruct c as [[[[c ts] js] a]| | |X e' k]; [|by apply Hgone|by apply Hgone|].
    - destruct Hs as (H1 & H2 & H3 & H4). cbn in H1, H2, H3, H4.
      apply (rinv_put _ r i _ gs g (G (map tid ts) [] Idle)); try done. by eapply inv_weaken.
    - destruct (Hs K (r_world r) gs Hi Hg) as [(g1 & A1 & A2 & A3) HF].
      assert (∀ w' x g', keeps p e g' → inv (M := M) name lim ex K w' (<[i := g']> gs) → safe i (keeps p e) (k x) g' done_ok →
        rinv K (Race w' (<[i := Proc (p_cfg p) (p_tasks p) (p_alive p) (Some (e, k x))]> (r_procs r))
          (r_runs r) (r_answers r))) as Hgo.
      { intros w' x g' B1 B2 B3. by apply (rinv_put _ r i _ gs g g'). }
      assert (f = FOk ∨ can_fail lim ex e') as Hf.
      { destruct ex eqn:Eex; [left; by destruct (Hnf eq_refl)|].
        destruct lim as [m|] eqn:El; [|right; split; [done|by left]]. destruct Ha as [_ [Ha|Ha]]; [by left|].
        right. split; [done|]. right. by eapply Ha. }
      assert (rinv K (let '(w', x) := mem_h (clock i) X e' (r_world r) in
        Race w' (<[i := Proc (p_cfg p) (p_tasks p) (p_alive p) (Some (e, k x))]> (r_procs r)) (r_runs r) (r_answers r))) as Hplain.
      { rewrite (surjective_pairing (mem_h _ _ _ _)). by apply (Hgo _ _ g1). }
      unfold call_h. destruct (fail_ans e') as [bad|]; [|exact Hplain].
      destruct f; [exact Hplain| |];
        (destruct Hf as [?|Hf]; [done|]); destruct (HF Hf) as [(g2 & B1 & B2 & B3) (g3 & C1 & C2 & C3)];
        [by apply (Hgo _ _ g2)|by apply (Hgo _ _ g3)].
  Qed.
  Lemma rinv_die K r i : rinv K r → allowed K r (RDie i) → rinv K (rstep r (RDie i)).
  Proof.
    intros Hr Ha. destruct (r_procs r !! i) as [p|] eqn:Ep.
    - assert (rstep r (RDie i) = put r i (gone p)) as E by (cbn [race_step]; by rewrite Ep).
      rewrite E. by eapply rinv_gone.
    - cbn [race_step]. by rewrite Ep.
  Qed.
  Lemma rinv_step K r x :
    rinv K r → allowed K r x → locked (rstep r x) → rinv (more K x) (rstep r x).
  Proof.
    intros Hr Ha Hl. destruct x as [i e n|i f|i].
    - destruct (r_procs r !! i) as [p|] eqn:Ep; [by eapply rinv_begin|]. cbn [race_step]. rewrite Ep.
      destruct Hr as (gs & Hlen & [Hc Hk] & Hp). exists gs. split; [done|]. split; [|done]. split; [|done].
      eapply core_known; [exact Hc|]. intros id Hid. unfold more. destruct (begun_id _); [by right|done].
    - by apply rinv_call.
    - by apply rinv_die.
  Qed.
  Lemma rinv_init n : rinv [] (race_init world_empty n).
  Proof.
    exists (repeat (G [] [] Idle) n). cbn. split; [by rewrite !repeat_length|]. split.
    - split; [|by intros key v]. assert (∀ f id, f (G [] [] Idle) = [] → tot f id (repeat (G [] [] Idle) n) = 0%nat) as Ht.
      { intros f id Hf. unfold tot. induction n as [|m IH]; [done|]. cbn [repeat map concat]. by rewrite Hf. }
      assert (∀ i g, repeat (G [] [] Idle) n !! i = Some g → g = G [] [] Idle) as Hg.
      { intros i g H. by apply elem_of_list_lookup_2, elem_of_list_In, repeat_spec in H. }
      assert (∀ s, qlist name world_empty s = []) as Hq.
      { intros s. unfold qlist. cbn. by rewrite lookup_empty. }
      split.
      + intros id. by rewrite Ht, !Hq, cnt_nil; [lia|].
      + intros id. rewrite Ht by done. lia.
      + intros id _. by rewrite Ht, !Hq.
      + intros i k g g' l m H1 _ H3. by rewrite (Hg _ _ H1) in H3.
      + intros i g l m H1 H3. by rewrite (Hg _ _ H1) in H3.
      + rewrite Hq. unfold le_lim. destruct lim; [cbn; lia|done].
      + intros _ id. rewrite Hq, cnt_nil. lia.
    - intros i p g H1 H2. apply elem_of_list_lookup_2, elem_of_list_In, repeat_spec in H1 as ->.
      apply elem_of_list_lookup_2, elem_of_list_In, repeat_spec in H2 as ->.
      split; [done|]. split; [done|]. split; [done|constructor].
  Qed.

  Notation race_after := (race_after prof sched (λ _, name) clock).
  Lemma rinv_after n xs :
    always_locked prof sched name clock n xs → NoDup (begun_ids xs) → Forall no_retry_job xs →
    match lim with
    | Some m => Forall (limited m) xs ∧ ∀ ys x zs, xs = ys ++ x :: zs → counts_ok (race_after n ys) x
    | None => True
    end →
    (ex = true → ∀ ys x zs, xs = ys ++ x :: zs → no_failure prof sched name clock (race_after n ys) x) →
    ∃ K, (∀ id, id ∈ K → id ∈ begun_ids xs) ∧ rinv K (race_after n xs).
  Proof.
    induction xs as [|x xs IH] using rev_ind; intros Hl Hnd Hnr Hlm Hnf.
    { exists []. split; [done|]. apply rinv_init. }
    unfold begun_ids in *. rewrite omap_app in *. apply Forall_app in Hnr as [Hnr Hx].
    apply Forall_cons_1 in Hx as [Hx _]. apply NoDup_app in Hnd as (Hnd & Hdis & _).
    destruct IH as (K & HK & Hr); try done.
    { intros ys zs E. apply (Hl ys (zs ++ [x])). by rewrite E, app_assoc. }
    { destruct lim; [|done]. destruct Hlm as [H1 H2]. apply Forall_app in H1 as [H1 _]. split; [done|].
      intros ys y zs E. apply (H2 ys y (zs ++ [x])). by rewrite E, <-app_assoc. }
    { intros Hx0 ys y zs E. apply (Hnf Hx0 ys y (zs ++ [x])). by rewrite E, <-app_assoc. }
    assert (race_after n (xs ++ [x]) = rstep (race_after n xs) x) as Estep.
    { unfold SpecRace.race_after, race_run. by rewrite fold_left_app. }
    exists (more K x). split.
    - intros id Hid. apply elem_of_app. unfold more in Hid. cbn. destruct (begun_id x) as [id'|]; [|left; by apply HK].
      apply elem_of_cons in Hid as [->|Hid]; [right; by left|left; by apply HK].
    - rewrite Estep. apply rinv_step; [done| |].
      + split; [done|]. split.
        * intros id Hid Hin. apply (Hdis id); [by apply HK|]. cbn. rewrite Hid. by left.
        * split; [|intros E; by apply (Hnf E xs x [])]. destruct lim; [|done]. destruct Hlm as [H1 H2]. apply Forall_app in H1 as [_ H1].
          apply Forall_cons_1 in H1 as [H1 _]. split; [done|]. by apply (H2 xs x []).
      + rewrite <-Estep. apply (Hl _ []). by rewrite app_nil_r.
  Qed.
  Lemma rinv_once K r : rinv K r →
    NoDup (all_in_work r) ∧ (∀ id, id ∈ all_in_work r → id ∈ qlist name (r_world r) Running) ∧
    NoDup (qlist name (r_world r) Queued ++ qlist name (r_world r) Running) ∧
    le_lim lim (length (qlist name (r_world r) Running)).
  Proof.
    intros (gs & Hlen & [Hc Hk] & Hp).
    assert (∀ id, (cnt id (all_in_work r) <= tot g_run id gs)%nat) as Hw.
    { assert (∀ i p g, r_procs r !! i = Some p → gs !! i = Some g → sub (in_work p) (g_run g)) as Hs.
      { intros i p g H1 H2. destruct (Hp i p g H1 H2) as (_ & _ & Hpi). destruct (p_now p) as [[e c]|]; [by destruct Hpi as [[? _] _]|].
        destruct Hpi as [-> _]. apply in_work_sub. }
      intros id. clear Hp Hc. unfold all_in_work, tot. revert gs Hlen Hs. induction (r_procs r) as [|p ps IH]; intros gs Hlen Hs; [cbn; lia|].
      destruct gs as [|g gs]; [done|]. cbn [map concat]. rewrite !cnt_app. pose proof (Hs 0%nat p g eq_refl eq_refl id).
      assert (cnt id (concat (map in_work ps)) <= cnt id (concat (map g_run gs)))%nat; [|lia].
      apply IH; [by injection Hlen|]. intros i p' g' H1 H2. by apply (Hs (S i) p' g'). }
    pose proof (c_once _ _ _ _ _ _ Hc) as H1. pose proof (c_held _ _ _ _ _ _ Hc) as H2. split; [|split; [|split]].
    - apply cnt_nodup. intros id. specialize (H1 id). specialize (H2 id). specialize (Hw id). lia.
    - intros id Hid. apply cnt_pos in Hid. apply cnt_pos. specialize (H2 id). specialize (Hw id). lia.
    - apply cnt_nodup. intros id. specialize (H1 id). rewrite cnt_app. lia.
    - by apply c_lim in Hc.
  Qed.
  Lemma rinv_full K r : rinv K r → ex = true →
    (∀ id, id ∈ qlist name (r_world r) Running →
       (∃ i p t, r_procs r !! i = Some p ∧ t ∈ p_tasks p ∧ tid t = id) ∨ ∃ i p, r_procs r !! i = Some p ∧ picks p) ∧
    ((∀ i p, r_procs r !! i = Some p → p_now p = None) →
       qlist name (r_world r) Running ≡ₚ concat (map (λ p, map tid (p_tasks p)) (r_procs r))).
  Proof.
    intros (gs & Hlen & [Hc Hk] & Hp) E. pose proof (c_full _ _ _ _ _ _ Hc E) as Hf. split.
    - intros id Hid. apply cnt_pos in Hid. specialize (Hf id).
      assert (id ∈ concat (map g_run gs)) as Hin. { apply cnt_pos. unfold tot in Hf. lia. }
      apply elem_of_list_In, in_concat in Hin as (l & Hl & Hin). apply in_map_iff in Hl as (g & <- & Hg).
      apply elem_of_list_In in Hin. apply elem_of_list_In, elem_of_list_lookup in Hg as [i Hg].
      destruct (lookup_lt_is_Some_2 (r_procs r) i) as [p Ep]. { rewrite <-Hlen. by eapply lookup_lt_Some. }
      destruct (Hp i p g Ep Hg) as (_ & _ & Hn).
      assert (sub (g_run g) (map tid (p_tasks p)) →
        ∃ i p t, r_procs r !! i = Some p ∧ t ∈ p_tasks p ∧ tid t = id) as Ht.
      { intros Hs. specialize (Hs id). apply cnt_pos in Hin. assert (id ∈ map tid (p_tasks p)) as H by (apply cnt_pos; lia).
        apply elem_of_list_In, in_map_iff in H as (t & <- & H). exists i, p, t. split; [done|]. by apply elem_of_list_In in H. }
      destruct (p_now p) as [[e c]|] eqn:En.
      + destruct Hn as [(_ & Hm & Hs) _]. specialize (Hs E). destruct (g_mode g); [left; by apply Ht| |left; by apply Ht].
        right. exists i, p. split; [done|]. unfold picks. rewrite En. by destruct e.
      + left. apply Ht. destruct Hn as [-> _]. apply sub_refl.
    - intros Hrest.
      assert (concat (map (λ p, map tid (p_tasks p)) (r_procs r)) = concat (map g_run gs)) as ->.
      { assert (∀ i p g, r_procs r !! i = Some p → gs !! i = Some g → g = free p) as Hfree.
        { intros i p g H1 H2. destruct (Hp i p g H1 H2) as (_ & _ & Hn). rewrite (Hrest i p H1) in Hn. by destruct Hn. }
        clear -Hlen Hfree. revert gs Hlen Hfree. induction (r_procs r) as [|p ps IH]; intros [|g gs] Hlen Hfree; try done.
        cbn [map concat]. f_equal; [by rewrite (Hfree 0%nat p g eq_refl eq_refl)|]. apply IH; [by injection Hlen|].
        intros i. apply (Hfree (S i)). }
      pose proof (c_once _ _ _ _ _ _ Hc) as H1. pose proof (c_held _ _ _ _ _ _ Hc) as H2.
      apply NoDup_Permutation.
      + apply cnt_nodup. intros id. specialize (H1 id). lia.
      + apply cnt_nodup. intros id. specialize (H1 id). specialize (H2 id). unfold tot in H2. lia.
      + intros id. rewrite <-!cnt_pos. specialize (Hf id). specialize (H2 id). unfold tot in Hf, H2. lia.
  Qed.
End race.

Section after.
  Context {M : Type} `{SM : Serde M}.
  Context (prof : nat → profile).
  Context (sched : nat → string → option (time → option time)).
  Context (name : string).
  Context (clock : nat → nat → time).
  Notation race_after := (race_after prof sched (λ _, name) clock).
  Implicit Types xs ys zs : list (race_event M).

  Lemma ralong_split (P : race M world → race_event M → Prop) n xs :
    ralong prof sched (λ _, name) clock P (race_init world_empty n) xs →
    ∀ ys x zs, xs = ys ++ x :: zs → P (race_after n ys) x.
  Proof.
    unfold SpecRace.race_after. generalize (race_init (M := M) world_empty n).
    induction xs as [|x0 xs IH]; intros r Hr ys x zs E; [by destruct ys|]. destruct Hr as [Hx Hr].
    destruct ys as [|y ys]; injection E as -> E; [done|]. cbn. by apply (IH _ Hr ys x zs).
  Qed.
  Lemma locked_once n xs :
    always_locked prof sched name clock n xs → NoDup (begun_ids xs) → Forall no_retry_job xs →
    let r := race_after n xs in
    NoDup (all_in_work r) ∧ (∀ id, id ∈ all_in_work r → id ∈ qlist name (r_world r) Running) ∧
    NoDup (qlist name (r_world r) Queued ++ qlist name (r_world r) Running).
  Proof.
    intros H1 H2 H3.
    destruct (rinv_after prof sched name clock None false Logic.I n xs H1 H2 H3 Logic.I) as (K & _ & Hr); [done|].
    destruct (rinv_once name clock None false K _ Hr) as (A1 & A2 & A3 & _). done.
  Qed.
  Lemma locked_limit n xs m :
    always_locked prof sched name clock n xs → NoDup (begun_ids xs) → Forall no_retry_job xs →
    (max_processing_jobs wq_config_default <= m)%nat → Forall (limited m) xs →
    ralong prof sched (λ _, name) clock counts_ok (race_init world_empty n) xs →
    (length (qlist name (r_world (race_after n xs)) Running) <= m)%nat.
  Proof.
    intros H1 H2 H3 Hm H4 H5'.
    assert (∀ ys x zs, xs = ys ++ x :: zs → counts_ok (race_after n ys) x) as H5 by by apply ralong_split.
    destruct (rinv_after prof sched name clock (Some m) false Hm n xs H1 H2 H3 (conj H4 H5)) as (K & _ & Hr); [done|].
    by destruct (rinv_once name clock (Some m) false K _ Hr) as (_ & _ & _ & H).
  Qed.
  Lemma locked_work_limit n xs m :
    always_locked prof sched name clock n xs → NoDup (begun_ids xs) → Forall no_retry_job xs →
    (max_processing_jobs wq_config_default <= m)%nat → Forall (limited m) xs →
    ralong prof sched (λ _, name) clock counts_ok (race_init world_empty n) xs →
    (length (qlist name (r_world (race_after n xs)) Running) <= m)%nat ∧
    (length (all_in_work (race_after n xs)) <= m)%nat.
  Proof.
    intros H1 H2 H3 Hm H4 H5. pose proof (locked_limit n xs m H1 H2 H3 Hm H4 H5) as HL. split; [done|].
    destruct (locked_once n xs H1 H2 H3) as (A & B & _). etransitivity; [|exact HL].
    apply submseteq_length, NoDup_submseteq; done.
  Qed.
  Lemma locked_full n xs :
    always_locked prof sched name clock n xs → NoDup (begun_ids xs) → Forall no_retry_job xs →
    ralong prof sched (λ _, name) clock (no_failure prof sched name clock) (race_init world_empty n) xs →
    let r := race_after n xs in
    (∀ id, id ∈ qlist name (r_world r) Running →
       (∃ i p t, r_procs r !! i = Some p ∧ t ∈ p_tasks p ∧ tid t = id) ∨ ∃ i p, r_procs r !! i = Some p ∧ picks p) ∧
    ((∀ i p, r_procs r !! i = Some p → p_now p = None) →
       qlist name (r_world r) Running ≡ₚ concat (map (λ p, map tid (p_tasks p)) (r_procs r))).
  Proof.
    intros H1 H2 H3 H4.
    destruct (rinv_after prof sched name clock None true Logic.I n xs H1 H2 H3 Logic.I) as (K & _ & Hr).
    { intros _. by apply ralong_split. }
    by apply (rinv_full name clock None true K).
  Qed.
  Lemma locked_kept id n xs i j c :
    always_locked prof sched name clock n xs → NoDup (begun_ids xs) → Forall no_retry_job xs →
    ralong prof sched (λ _, name) clock (no_failure prof sched name clock) (race_init world_empty n) xs →
    ralong prof sched (λ _, name) clock (untouched (λ _, name) name id) (race_init world_empty n) xs →
    let r := race_after n xs in
    jid j = id → (i, EvEnqueue j c, RUnit (Ok tt)) ∈ r_answers r →
    (∀ k p, r_procs r !! k = Some p → ¬ picks p) →
    id ∈ qlist name (r_world r) Queued ∨ ∃ k p t, r_procs r !! k = Some p ∧ t ∈ p_tasks p ∧ tid t = id.
  Proof.
    intros H1 H2 H3 H4 H5 r Hj Hin Hnp. subst r.
    destruct (race_listed name id prof sched (λ _, name) clock n xs i j c H5 Hj Hin) as [[Hq|Hr] _]; [by left|].
    destruct (locked_full n xs H1 H2 H3 H4) as [Hf _].
    destruct (Hf id Hr) as [?|(k & p & Hp & Hpk)]; [by right|]. by destruct (Hnp k p Hp).
  Qed.
End after.
