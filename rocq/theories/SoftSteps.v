(** The steps of processes that die in the middle of ticks, task steps and retries. *)
From Verif Require Import SpecSoft WorldFacts BackendFacts JsonFacts SoftFacts FleetRedis.

Section steps.
  Context {M : Type} `{SM : Serde M} {SO : SerdeOk M}.
  Context (name : string).
  Context (L : nat).
  Context (L20 : (20 <= L)%nat).
  Context (prof : profile).
  Context (sched : string → option (time → option time)).
  Context (clock : nat → time).
  Notation h := (mem_h clock).
  Notation qname := (format_queue_name name).
  Notation qlist := (qlist name).
  Notation stored := (@stored M SM).
  Notation I := (calm_with (M := M) name L).
  Notation WP T := (wp clock (I T) (I T)).
  Notation RP := (wp clock (λ _, True) (λ _, False)).
  Ltac iw H := first [exact H | refine (I_st _ _ _ _ _ _ H); reflexivity].

  Lemma rp_enqueue T (j : job M) w :
    I T w → jid j ∉ qlist w Queued → jid j ∉ T → RP (enqueue name j) (λ _ w', I T w') w.
  Proof.
    intros HI Hq HT.
    set (j' := enq j (now_ms clock (w_push name w Queued (jid j)))).
    assert (H1 : I T (w_put w j')).
    { apply I_put; [|done]. right. left. done. }
    assert (H2 : I T (w_push name (w_put w j') Queued (jid j))).
    { apply I_push; [by rewrite qlist_put|done| |done].
      exists (norm_job j'). split; [|by left]. rewrite stored_put. by rewrite bool_decide_true. }
    assert (H3 : I T (w_save (w_tick (w_push name w Queued (jid j))) j')).
    { revert H2. apply I_ext.
      - intros s. by rewrite qlist_save, qlist_tick, !qlist_push, !qlist_put.
      - intros k. rewrite stored_save, stored_tick, !stored_push, stored_put. done. }
    repeat (split; [exact Logic.I|]). iw H3.
  Qed.
  Lemma rp_run T (j : job M) c w :
    I T w →
    (jstatus (ctx j) = Queued ∨
     ∃ ex : job M, stored w (jid j) = Some ex ∧ jstatus (ctx ex) = jstatus (ctx j)) →
    RP (run_with_config name j c) (λ _ w', I T w') w.
  Proof.
    intros HI Hj. unfold run_with_config. apply wp_get; [done|].
    destruct (stored w (jid j)) as [ex|] eqn:Ej.
    2:{ destruct (I_done name L T w (jid j) HI) as [Hq HT]; [intros j'; by rewrite Ej|].
        by apply rp_enqueue. }
    apply wp_bind. eapply wp_mono with
      (Q := λ r w', r = Ok tt ∧ I T w' ∧ qlist w' Queued = qlist w Queued).
    { destruct (override_data c && negb (is_running ex)) eqn:Eo; [|by split_and!].
      apply andb_prop in Eo as [_ Er]. unfold is_running in Er.
      apply negb_true_iff, bool_decide_eq_false in Er.
      assert (HT : jid j ∉ T) by (by eapply I_queued).
      assert (H1 : I T (w_put w j)).
      { apply I_put; [|done]. destruct Hj as [Hj|(ex'&[= <-]&Hs)]; [right; left; done|].
        destruct (jstatus (ctx j)) eqn:Es; try (right; left; done); try (left; done);
          right; right; (split; [|done]);
          (intros Hx; destruct (cw_p _ _ _ _ HI _ Hx) as (j'&Hj'&Hs'); rewrite Ej in Hj';
           injection Hj' as <-; rewrite Hs in Hs'; by destruct Hs'). }
      split; [done|]. split; [done|]. split_and!; [done|exact H1|apply qlist_put]. }
    intros r w' (->&HI'&Hq). cbn beta iota.
    destruct (re_run c && is_done ex) eqn:Ed; [|by split].
    apply andb_prop in Ed as [_ Ed].
    destruct (I_done name L T w (jid j) HI) as [Hq' HT]; [intros j'; rewrite Ej; by intros [= <-]|].
    apply wp_bind. eapply wp_mono; [apply rp_enqueue; [done|by rewrite Hq|done]|].
    intros r w2 H2. by destruct r.
  Qed.
  Lemma rp_cancel T id w : I T w → RP (cancel_job (M := M) name id) (λ _ w', I T w') w.
  Proof.
    intros HI. unfold cancel_job. apply wp_get; [done|].
    destruct (stored w id) as [j|] eqn:Ej; [|by split].
    destruct (is_queued j) eqn:Eq; [|by split].
    unfold is_queued in Eq. apply bool_decide_eq_true in Eq.
    assert (Hid : jid j = id) by by eapply cw_k.
    assert (HT : id ∉ T) by (eapply I_queued; [done|done|by rewrite Eq]).
    set (j' := can j (now_ms clock w)).
    assert (H1 : I T (w_put (w_rem name w Queued id) j')).
    { apply I_put; [|apply I_rem; [by left|done]]. right. right. change (jid j') with (jid j). rewrite Hid.
      split; [|done]. rewrite qlist_rem, bool_decide_true by done.
      rewrite elem_of_list_filter. by intros [? _]. }
    assert (H2 : I T (w_rem name (w_save (w_tick w) j') Queued id)).
    { revert H1. apply I_ext.
      - intros s. by rewrite qlist_put, !qlist_rem, !qlist_save, !qlist_tick.
      - intros k. by rewrite stored_rem, stored_save, stored_tick, stored_put, stored_rem. }
    repeat (split; [exact Logic.I|]). iw H2.
  Qed.

  (** One process; [R]: the tasks of the others. *)
  Definition sound_with (R : list string) (s : sys world M) : Prop :=
    I (R ++ map tid (tasks s)) (sw s) ∧ Forall (λ t, jid (t_job t) = tid t) (tasks s) ∧
    (max_processing_jobs (cfg s) <= L)%nat.

  Definition post (R : list string) (a : wq_config * list (task M) * list (job M) * response M)
      (w : world) : Prop :=
    let ts := (a.1.1.2) in I (R ++ map tid ts) w ∧ Forall (λ t, jid (t_job t) = tid t) ts ∧
    (max_processing_jobs (a.1.1.1) <= L)%nat.

  Lemma post_picked R ts (js : list (job M)) w :
    I ((R ++ map tid ts) ++ map jid js) w → Forall (λ t, jid (t_job t) = tid t) ts →
    I (R ++ map tid (ts ++ map (λ j, Task j j Spawned) js)) w ∧
    Forall (λ t, jid (t_job t) = tid t) (ts ++ map (λ j, Task j j Spawned) js).
  Proof.
    intros HI HF. split.
    - rewrite map_app, app_assoc. rewrite map_map. exact HI.
    - apply Forall_app. split; [done|]. apply Forall_fmap. apply Forall_forall. done.
  Qed.

  Definition whole_only (e : event M) : bool :=
    match e with EvEnqueue _ _ | EvCancel _ => true | _ => false end.

  Lemma wp_event R c (ts : list (task M)) e w :
    I (R ++ map tid ts) w → Forall (λ t, jid (t_job t) = tid t) ts → whole_only e = false →
    (max_processing_jobs c <= L)%nat → match e with EvConfig c' => (max_processing_jobs c' <= L)%nat | _ => True end →
    WP R (ev_prog prof sched name c ts e) (post R) w.
  Proof.
    intros HI HF He Hc Hc'. assert (HR : I R w) by by eapply I_r.
    assert (Hup : ∀ {A} (p : prog A) Q, WP (R ++ map tid ts) p Q w → WP R p Q w).
    { intros A p. clear -SO. revert w. induction p as [a| | |X e k IH]; intros w Q; cbn.
      - intros [? ?]. split; [by eapply I_r|done].
      - intros [? ?]. split; by eapply I_r.
      - intros [? ?]. split; by eapply I_r.
      - intros [? ?]. split; [by eapply I_r|by apply IH]. }
    destruct e as [j ec|id|id|id|c'| |i u| | |e' n|]; try discriminate He; cbn [ev_prog].
    - (* get *) split; [exact HR|]. split; [exact HR|]. by split_and!.
    - (* retry *) apply Hup, wp_bind. eapply wp_mono; [by apply wp_retry|].
      intros r w' HI'. by split_and!.
    - by split_and!.
    - (* tick *) apply Hup, wp_bind. eapply wp_mono; [by apply wp_process|].
      intros ts' w' (js&->&HI'). split; [by eapply I_r|]. edestruct post_picked; [exact HI'|exact HF|]. by split_and!.
    - (* task *) destruct (ts !! i) as [t|] eqn:Ei; [|by split_and!].
      assert (Ht : jid (t_job t) = tid t) by (by eapply Forall_lookup_1 in HF).
      assert (Hkeep : ∀ t' w' js r, tid t' = tid t → jid (t_job t') = tid t → st w' = st w →
        post R (c, <[i := t']> ts, js, r) w').
      { intros t' w' js r E1 E2 E3. split_and!; [| |exact Hc]; cbn [fst snd].
        - assert (E : map tid (<[i := t']> ts) = map tid ts).
          { change (tid <$> <[i := t']> ts = tid <$> ts). rewrite list_fmap_insert, E1.
            apply list_insert_id. by rewrite list_lookup_fmap, Ei. }
          rewrite E. by apply (I_st _ _ _ w).
        - apply Forall_insert; [done|]. by rewrite E1. }
      assert (HP : R ++ map tid ts ≡ₚ (R ++ map tid (delete i ts)) ++ [tid t]).
      { rewrite <- app_assoc. f_equiv. change (tid <$> ts ≡ₚ (tid <$> delete i ts) ++ [tid t]).
        rewrite (delete_Permutation ts i t Ei) at 1. cbn. apply Permutation_cons_append. }
      assert (HI1 : I ((R ++ map tid (delete i ts)) ++ [tid t]) w) by by eapply I_perm.
      assert (HF1 : Forall (λ t, jid (t_job t) = tid t) (delete i ts)) by by apply Forall_delete.
      apply wp_bind. unfold task_step. destruct (t_phase t).
      + destruct (is_cancelled (t_job t)).
        * assert (H2 : I (R ++ map tid (delete i ts)) (w_push name w Canceled (jid (t_job t)))).
          { apply I_push_other; [done|done|]. by eapply I_r. }
          split; [exact HR|]. split; [by eapply (I_r name L R)|].
          split; [by eapply (I_r name L R)|]. by split_and!.
        * split; [exact HR|]. split; [iw HR|]. split; [iw HR|]. by apply Hkeep.
      + split; [exact HR|]. split; [exact HR|]. by apply Hkeep.
      + split; [exact HR|]. split; [iw HR|]. split; [iw HR|]. by apply Hkeep.
      + apply wp_bind.
        assert (Hlow : ∀ {A} (p : prog A) Q,
          WP (R ++ map tid (delete i ts)) p Q w → WP R p Q w).
        { intros A p. clear -SO. revert w. induction p as [a| | |X e k IH]; intros w Q; cbn.
          - intros [? ?]. split; [by eapply I_r|done].
          - intros [? ?]. split; by eapply I_r.
          - intros [? ?]. split; by eapply I_r.
          - intros [? ?]. split; [by eapply I_r|by apply IH]. }
        apply Hlow. eapply wp_mono.
        * apply wp_tail; [by eapply I_r| |].
          -- rewrite Ht. apply (cw_d _ _ _ _ HI1). apply elem_of_app. right. by apply elem_of_list_singleton.
          -- rewrite Ht. pose proof (cw_t _ _ _ _ HI1) as HN. apply NoDup_app in HN as (_&HN&_).
             intros Hx. apply (HN _ Hx). by apply elem_of_list_singleton.
        * intros [] w' HI'. split; [by eapply I_r|]. split; [by eapply I_r|]. by split_and!.
    - split; [exact HR|]. split_and!; cbn; [by rewrite app_nil_r|constructor|done].
    - split; [exact HR|]. split_and!; cbn; [by rewrite app_nil_r|constructor|done].
    - split; [exact HR|]. split_and!; cbn; [by rewrite app_nil_r|constructor|done].
    - (* start *) apply wp_bind. eapply wp_mono; [by apply wp_process|].
      intros ts' w' (js&->&HI'). split; [by eapply I_r|].
      edestruct (post_picked R [] js); [cbn; rewrite app_nil_r; exact HI'|done|]. by split_and!.
  Qed.

  Lemma sound_dead R w c a js : I R w → (max_processing_jobs c <= L)%nat → sound_with R (Sys w c [] a js).
  Proof. intros HI Hc. split_and!; cbn; [by rewrite app_nil_r|constructor|done]. Qed.

  Lemma soft_step R (s : sys world M) e :
    sound_with R s → ok_soft_event (sw s) e →
    match e with EvConfig c' => (max_processing_jobs c' <= L)%nat | _ => True end →
    sound_with R (sys_step prof sched name h s e).1.
  Proof.
    intros (HI & HF & HL) Hok Hcf.
    assert (HR : I R (sw s)) by by eapply I_r.
    assert (Hc : whole_only e = false → sound_with R (commit prof sched name h s e).1).
    { intros He. unfold commit.
      pose proof (wp_run _ _ _ _ _ _ (wp_event R (cfg s) (tasks s) e (sw s) HI HF He HL Hcf)) as H.
      destruct (run h _ (sw s)) as [w [[[[c ts] js] r]| |]]; [exact H|by apply sound_dead|by apply sound_dead]. }
    assert (Hn : ∀ e' n, whole_only e' = false → 
      I R (run_n h n (ev_prog prof sched name (cfg s) (tasks s) e') (sw s))).
    { intros e' n He.
      assert (Hd : match e' with EvConfig _ => False | _ => True end → I R (run_n h n (ev_prog prof sched name (cfg s) (tasks s) e') (sw s))).
      { intros Hd. eapply wp_run_n, (wp_event R (cfg s) (tasks s) e'); [done|done|done|done|]. by destruct e'. }
      destruct e' as [| | | |c'| | | | | |]; try (by apply Hd). by destruct n. }
    assert (Hw : whole_only e = true → sound_with R (commit prof sched name h s e).1).
    { intros He. unfold commit. destruct e as [j ec|id| | | | | | | | | ]; try discriminate He.
      - pose proof (wp_run _ _ _ _ _ _ (rp_run _ j ec (sw s) HI Hok)) as H. cbn [ev_prog].
        rewrite run_bind. destruct (run h _ (sw s)) as [w [r| |]]; [|done|done]. by split_and!.
      - pose proof (wp_run _ _ _ _ _ _ (rp_cancel _ id (sw s) HI)) as H. cbn [ev_prog].
        rewrite run_bind. destruct (run h _ (sw s)) as [w [r| |]]; [|done|done]. by split_and!. }
    unfold sys_step. destruct (alive s).
    - destruct e as [j ec|id|id|id|c'| |i u| | |e' n|];
        try (by apply Hc); try (by apply Hw); try (by apply sound_dead); [|by split_and!].
      apply sound_dead; [|done]. destruct e'; try done; by apply Hn.
    - destruct e as [j ec|id|id|id|c'| |i u| | |e' n|]; try (by split_and!); [|by apply Hc].
      destruct e'; try (by split_and!). apply sound_dead; [|done]. by apply Hn.
  Qed.
End steps.

Lemma insert_tasks {M} (ms : list (member M)) i m m' :
  ms !! i = Some m →
  concat (map m_tasks (<[i := m']> ms)) ≡ₚ concat (map m_tasks (delete i ms)) ++ m_tasks m'.
Proof.
  revert i. induction ms as [|x ms IH]; intros [|i]; cbn; try done.
  - intros _. apply Permutation_app_comm.
  - intros H. rewrite (IH _ H). by rewrite app_assoc.
Qed.

Section fleet.
  Context {M : Type} `{SM : Serde M} {SO : SerdeOk M}.
  Context (prof : nat → profile).
  Context (sched : nat → string → option (time → option time)).
  Context (name : string).
  Context (clock : nat → nat → time).
  Notation I L := (calm_with (M := M) name L).
  Notation after n es := (fleet_after prof sched name clock n es).

  Definition f_sound (L : nat) (f : fleet M) : Prop :=
    I L (map tid (all_tasks f)) (f_world f) ∧ Forall (λ t, jid (t_job t) = tid t) (all_tasks f) ∧
    Forall (λ m, (max_processing_jobs (m_cfg m) <= L)%nat) (f_members f).

  Lemma f_sound_step L f ie :
    (20 <= L)%nat → f_sound L f → ok_soft_event (f_world f) ie.2 →
    match ie.2 with EvConfig c' => (max_processing_jobs c' <= L)%nat | _ => True end →
    f_sound L (fleet_step prof sched name clock f ie).
  Proof.
    destruct ie as [i e]. intros L20 (HI & HF & HC) Hok Hcf. unfold fleet_step. cbn [fst snd] in *.
    destruct (f_members f !! i) as [m|] eqn:Em; [|by split_and!].
    set (rest := concat (map m_tasks (delete i (f_members f)))).
    assert (HP : all_tasks f ≡ₚ rest ++ m_tasks m).
    { unfold all_tasks. rewrite <- (list_insert_id _ _ _ Em) at 1. by apply insert_tasks with m. }
    rewrite HP in HF. apply Forall_app in HF as [HF1 HF2].
    assert (Hs : sound_with name L (map tid rest) (seen_by f m)).
    { split_and!; [|done|exact (Forall_lookup_1 _ _ _ _ HC Em)]. cbn. eapply I_perm; [|exact HI]. rewrite <- map_app. by apply Permutation_map. }
    apply (soft_step name L L20 (prof i) (sched i) (clock i) _ _ e) in Hs; [|done|done].
    destruct (sys_step _ _ _ _ _ _) as [s r]. destruct Hs as (H1 & H2 & H3).
    assert (HP' : all_tasks (Fleet (sw s) (<[i := Member (cfg s) (tasks s) (alive s)]> (f_members f)) (runs s)) ≡ₚ rest ++ tasks s).
    { unfold all_tasks. cbn [f_members]. by rewrite (insert_tasks _ _ m _ Em). }
    split_and!.
    - cbn [f_world fst]. eapply I_perm; [|exact H1]. rewrite <- map_app. apply Permutation_map. by symmetry.
    - cbn [fst]. rewrite HP'. by apply Forall_app.
    - cbn [fst f_members]. by apply Forall_insert.
  Qed.
  Lemma f_sound_run L f es :
    f_sound L f → ok_soft prof sched name clock f es → limits_within L es →
    f_sound L (fleet_run prof sched name clock f es).
  Proof.
    intros Hf Hok [L20 Hl]. revert f Hf Hok. induction es as [|ie es IH]; intros f Hf Hok; [done|].
    destruct Hok as [H1 H2]. apply IH; [|apply f_sound_step|done]; [|done|done|done|].
    - intros i c Hc. apply (Hl i). by apply elem_of_cons; right.
    - destruct ie as [i e]. cbn. destruct e; try done. apply (Hl i). by apply elem_of_cons; left.
  Qed.
  Lemma f_sound_init L n : (20 <= L)%nat → f_sound L (fleet_init n).
  Proof.
    intros L20.
    assert (E : all_tasks (M := M) (fleet_init n) = []).
    { unfold all_tasks, fleet_init. cbn. induction n as [|n IH]; [done|]. exact IH. }
    split_and!; rewrite ?E; [|done|].
    - constructor; cbn; try by constructor.
      + intros x Hx. by apply elem_of_nil in Hx.
      + intros x Hx. by apply elem_of_nil in Hx.
      + intros x Hx. by apply elem_of_nil in Hx.
      + done.
      + intros x Hx. by apply elem_of_nil in Hx.
      + exact (Nat.le_0_l L).
    - cbn. clear E. induction n as [|n IH]; cbn; constructor; [exact L20|exact IH].
  Qed.
  Lemma limits_some (es : list (nat * event M)) : ∃ L, limits_within L es.
  Proof.
    induction es as [|[i e] es (L & H1 & H2)].
    { exists 20%nat. split; [done|]. intros i c Hc. by apply elem_of_nil in Hc. }
    exists (Nat.max L (match e with EvConfig c => max_processing_jobs c | _ => 0 end)). split; [lia|].
    intros i' c [[= -> <-]|Hc]%elem_of_cons; [lia|]. specialize (H2 _ _ Hc). lia.
  Qed.
  Lemma f_sound_after L n es :
    ok_soft prof sched name clock (fleet_init n) es → limits_within L es →
    I L (map tid (all_tasks (after n es))) (f_world (after n es)).
  Proof. intros H HL. refine (proj1 (f_sound_run L _ _ (f_sound_init L n _) H HL)). apply HL. Qed.

  Lemma soft_no_overlap n es :
    ok_soft prof sched name clock (fleet_init n) es → NoDup (map tid (all_tasks (after n es))).
  Proof. intros H. destruct (limits_some es) as [L HL]. exact (cw_t _ _ _ _ (f_sound_after L n es H HL)). Qed.
  Lemma soft_tasks n es t :
    ok_soft prof sched name clock (fleet_init n) es → t ∈ all_tasks (after n es) →
    tid t ∉ qlist name (f_world (after n es)) Queued ∧
    tid t ∈ qlist name (f_world (after n es)) Running ∧
    ∃ j : job M, stored (f_world (after n es)) (tid t) = Some j ∧ jstatus (ctx j) = Running.
  Proof.
    intros H Ht. destruct (limits_some es) as [L HL]. pose proof (f_sound_after L n es H HL) as HI.
    assert (Hx : tid t ∈ map tid (all_tasks (after n es))) by by apply elem_of_list_fmap_1.
    split_and!; [by apply (cw_d _ _ _ _ HI)|by apply (cw_l _ _ _ _ HI)|by apply (cw_r _ _ _ _ HI)].
  Qed.
  Lemma soft_waiting n es :
    ok_soft prof sched name clock (fleet_init n) es →
    NoDup (qlist name (f_world (after n es)) Queued) ∧
    ∀ id, id ∈ qlist name (f_world (after n es)) Queued →
    ∃ j : job M, stored (f_world (after n es)) id = Some j ∧
      (jstatus (ctx j) = Queued ∨ jstatus (ctx j) = Running).
  Proof.
    intros H. destruct (limits_some es) as [L HL]. pose proof (f_sound_after L n es H HL) as HI.
    split; [by apply (cw_q _ _ _ _ HI)|]. intros id. by apply (cw_p _ _ _ _ HI).
  Qed.
  Lemma soft_limit L n es :
    ok_soft prof sched name clock (fleet_init n) es → limits_within L es →
    (length (all_tasks (after n es)) <= length (qlist name (f_world (after n es)) Running) <= L)%nat.
  Proof.
    intros H HL. pose proof (f_sound_after L n es H HL) as HI. split; [|exact (cw_b _ _ _ _ HI)].
    rewrite <- (map_length tid). apply submseteq_length, NoDup_submseteq; [apply HI|apply HI].
  Qed.
  Lemma ok_soft_app f es es' :
    ok_soft prof sched name clock f (es ++ es') ↔
    ok_soft prof sched name clock f es ∧
    ok_soft prof sched name clock (fleet_run prof sched name clock f es) es'.
  Proof.
    revert f. induction es as [|ie es IH]; intros f; cbn; [tauto|]. rewrite IH. tauto.
  Qed.
  Lemma rf_soft_ok n es : rf_soft prof sched name clock n es → ok_soft prof sched name clock (fleet_init n) es.
  Proof.
    induction es as [|ie es IH] using rev_ind; [done|]. intros H. apply ok_soft_app. split.
    - apply IH. intros k x Hk. specialize (H k x (lookup_app_l_Some _ _ _ _ Hk)).
      apply lookup_lt_Some in Hk. by rewrite take_app_le in H by lia.
    - cbn. split; [|done]. specialize (H (length es) ie ltac:(by apply list_lookup_middle)). rewrite take_app in H.
      destruct (fleet_same_view prof sched name clock n es) as (_ & _ & _ & E).
      assert (∀ e, rf_soft_event (rf_world (rf_after prof sched name clock n es)) e →
        ok_soft_event (f_world (fleet_after prof sched name clock n es)) e) as He; [|exact (He _ H)].
      intros e. destruct e; try done. cbn. intros [?|(ex & Hx & ?)]; [by left|right]. exists ex. by rewrite <-E.
  Qed.
  Lemma rf_soft_no_overlap n es :
    rf_soft prof sched name clock n es → NoDup (map tid (rf_tasks (rf_after prof sched name clock n es))).
  Proof.
    intros H. unfold rf_tasks. destruct (fleet_same_view prof sched name clock n es) as (-> & _).
    exact (soft_no_overlap n es (rf_soft_ok n es H)).
  Qed.
  Lemma rf_soft_limit L n es :
    rf_soft prof sched name clock n es → limits_within L es →
    let f := rf_after prof sched name clock n es in
    (length (rf_tasks f) <= length (r_list name (rf_world f) Running) <= L)%nat.
  Proof.
    intros H HL. cbv zeta. unfold rf_tasks. destruct (fleet_same_view prof sched name clock n es) as (-> & _ & E & _).
    rewrite E. exact (soft_limit L n es (rf_soft_ok n es H) HL).
  Qed.
End fleet.
