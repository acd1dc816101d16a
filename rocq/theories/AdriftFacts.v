(** A job in limbo stays there however many processes race: a condition on the calls of all programs, given answers
    of a storage in which the job is in limbo. *)
From Verif Require Import Spec SpecRace SpecAdrift JsonFacts BackendFacts WorldFacts RaceFacts RaceProps.

Section adrift.
  Context {M : Type} `{SM : Serde M}.
  Context (prof : nat → profile).
  Context (sched : nat → string → option (time → option time)).
  Context (name : nat → string).
  Context (clock : nat → nat → time).
  Context (id : string) (j0 : job M) (H0 : jstatus (ctx j0) = Running).
  (** How often the id is in each list. *)
  Context (num : string → nat).
  Context (Hnum : ∀ i, num (format_queue_name (name i) Queued) = 0%nat).
  Notation stored := (@stored M SM).

  Definition lim (w : world) : Prop :=
    (∀ k (j : job M), stored w k = Some j → jid j = k) ∧ stored w id = Some j0 ∧
    ∀ l, occurs id (ql (st w) l) = num l.
  (** What a call may do. *)
  Definition may (X : Set) (e : eff X) : Prop :=
    match e with
    | QPush _ x | QRemove _ x => x ≠ id
    | QMove f _ _ _ _ => num f = 0%nat
    | SUpsert _ k v => k ≠ id ∧ ∀ js (j : job M), v = Some js → dec_job js = Some j → jid j = k
    | _ => True
    end.
  (** What its answer can be; [sure] if it did not fail. *)
  Definition told (sure : bool) (X : Set) (e : eff X) : X → Prop :=
    match e in eff X return X → Prop with
    | SGet h k => λ x, h = STORAGE_HASH →
        (∀ js (j : job M), x = Ok (Some (Some js)) → dec_job js = Some j → jid j = k ∧ (k = id → j = j0)) ∧
        (sure = true → k = id → ∃ js, x = Ok (Some (Some js)) ∧ dec_job js = Some j0)
    | QGet l _ _ => λ x, num l = 0%nat → ∀ ids, x = Ok ids → id ∉ ids
    | _ => λ _, True
    end.
  Fixpoint safe {A} (sure : bool) (p : prog A) (Q : A → Prop) : Prop :=
    match p with
    | Ret a => Q a
    | Panic | Diverge => True
    | @Eff _ X e k => may X e ∧ ∀ x, told sure X e x → safe sure (k x) Q
    end.
  Lemma safe_bind {A B} s (p : prog A) (f : A → prog B) (R : A → Prop) (Q : B → Prop) :
    safe s p R → (∀ a, R a → safe s (f a) Q) → safe s (bind p f) Q.
  Proof.
    intros Hp Hf. induction p as [a| | |X e k IH]; cbn in *; auto. destruct Hp as [H1 H2]. split; [done|]. auto.
  Qed.
  Lemma safe_mono {A} s (p : prog A) (Q Q' : A → Prop) : (∀ a, Q a → Q' a) → safe s p Q → safe s p Q'.
  Proof. intros H. induction p as [a| | |X e k IH]; cbn; auto. intros [H1 H2]. split; [done|]. auto. Qed.

  (** *** The storage *)
  Lemma occurs_app (a b : list string) : occurs id (a ++ b) = (occurs id a + occurs id b)%nat.
  Proof. unfold occurs. by rewrite list.filter_app, app_length. Qed.
  Lemma occurs_perm (a b : list string) : a ≡ₚ b → occurs id a = occurs id b.
  Proof. intros H. unfold occurs. by rewrite H. Qed.
  Lemma occurs_rev d (a : list string) : occurs id (from_end d a) = occurs id a.
  Proof. apply occurs_perm, from_end_perm. Qed.
  Lemma occurs_none (l : list string) : occurs id l = 0%nat ↔ id ∉ l.
  Proof.
    unfold occurs. induction l as [|x l IH]; [by split; [intros _ ?%elem_of_nil|]|].
    destruct (decide (x = id)) as [->|Hne].
    - rewrite filter_cons_True by done. split; [done|]. intros H. destruct H. left.
    - rewrite filter_cons_False by done. rewrite IH, not_elem_of_cons. split; [|by intros []]. done.
  Qed.
  Lemma occurs_remove (l : list string) x : x ≠ id → occurs id (filter (λ y, y ≠ x) l) = occurs id l.
  Proof.
    intros Hx. unfold occurs. induction l as [|y l IH]; [done|]. rewrite filter_cons.
    destruct (decide (y ≠ x)) as [H|H].
    - rewrite !filter_cons. destruct (decide (y = id)); cbn; by rewrite IH.
    - assert (y = x) as -> by (destruct (decide (y = x)); [done|by destruct H]).
      by rewrite filter_cons_False.
  Qed.
  Lemma lim_call c X (e : eff X) w : lim w → may X e → lim (mem_h c X e w).1.
  Proof.
    intros (H1&H2&H3) He.
    destruct e as [l x|l l' n d d'|l x|l n d|l|h k v|h k| |m]; cbn -[mem_push mem_move mem_remove mem_upsert mem_sget];
      try done.
    - split; [intros k j; unfold stored, mem_sget; cbn [st set_st]; rewrite mem_push_storages; apply H1|].
      split; [unfold stored, mem_sget; cbn [st set_st]; rewrite mem_push_storages; apply H2|].
      intros q. cbn [st set_st]. rewrite mem_push_ql. unfold upd. destruct (String.eqb_spec q l) as [->|]; [|done].
      unfold occurs. rewrite filter_cons_False by done. apply H3.
    - pose proof (mem_move_ql (st w) l l' n d d') as [_ Hm]. pose proof (mem_move_storages (st w) l l' n d d') as Hs.
      destruct (mem_move (st w) l l' n d d') as [s r]. cbn [fst snd st set_st] in *.
      split; [intros k j; unfold stored, mem_sget; cbn [st set_st]; rewrite Hs; apply H1|].
      split; [unfold stored, mem_sget; cbn [st set_st]; rewrite Hs; apply H2|].
      intros q. cbn [st set_st]. rewrite Hm. cbn in He. pose proof (H3 l) as Hl. rewrite He in Hl.
      assert (occurs id (from_end d (ql (st w) l)) = 0%nat) as Hd by by rewrite occurs_rev.
      rewrite <-(take_drop n (from_end d (ql (st w) l))), occurs_app in Hd.
      assert (∀ d a b, occurs id (put_end d a b) = (occurs id a + occurs id b)%nat) as Hput.
      { intros dd a b. destruct dd; cbn [put_end]; rewrite occurs_app; [|lia].
        rewrite (occurs_perm (rev b) b) by by rewrite <-Permutation_rev. lia. }
      unfold upd. destruct (String.eqb_spec q l') as [->|].
      + rewrite Hput. destruct (String.eqb_spec l' l) as [->|]; [rewrite occurs_rev; rewrite He; lia|]. rewrite H3. lia.
      + destruct (String.eqb_spec q l) as [->|]; [rewrite occurs_rev; rewrite He; lia|]. apply H3.
    - split; [intros k j; unfold stored, mem_sget; cbn [st set_st]; rewrite mem_remove_storages; apply H1|].
      split; [unfold stored, mem_sget; cbn [st set_st]; rewrite mem_remove_storages; apply H2|].
      intros q. cbn [st set_st]. rewrite mem_remove_ql. unfold upd. destruct (String.eqb_spec q l) as [->|]; [|done].
      cbn in He. rewrite occurs_remove by done. apply H3.
    - destruct He as [He1 He2]. split; [|split].
      + intros k' j. unfold stored. cbn [st set_st]. rewrite mem_upsert_sget.
        destruct (String.eqb_spec STORAGE_HASH h); cbn [andb]; [|apply H1].
        destruct (String.eqb_spec k' k) as [->|]; [|apply H1]. destruct v as [js|]; [|done]. by apply He2.
      + unfold stored. cbn [st set_st]. rewrite mem_upsert_sget.
        destruct (String.eqb_spec id k) as [->|]; [done|]. rewrite andb_false_r. apply H2.
      + intros q. cbn [st set_st]. unfold ql. rewrite mem_upsert_queues. apply H3.
  Qed.
  Lemma lim_told c X (e : eff X) w : lim w → told true X e (mem_h c X e w).2.
  Proof.
    intros (H1&H2&H3).
    destruct e as [l x|l l' n d d'|l x|l n d|l|h k v|h k| |m]; cbn -[mem_push mem_move mem_remove mem_upsert mem_sget mem_get];
      try done.
    - intros Hl ids [= <-]. rewrite mem_get_spec. intros Hin.
      assert (id ∉ ql (st w) l) as Hn by (apply occurs_none; by rewrite H3).
      apply Hn. apply elem_of_take in Hin as (a&Hin&_). apply elem_of_list_lookup_2 in Hin. by rewrite from_end_perm in Hin.
    - intros ->. split.
      + intros js j [= E] Ej.
        assert (stored w k = Some j) as Es by (unfold stored; by rewrite E).
        split; [by apply H1|]. intros ->. rewrite H2 in Es. by injection Es.
      + intros _ ->. unfold stored in H2. destruct (mem_sget (st w) STORAGE_HASH id) as [[js|]|]; try done. by exists js.
  Qed.
  Lemma told_weak X (e : eff X) x : told true X e x → told false X e x.
  Proof. destruct e; cbn; try done. intros H E. destruct (H E). done. Qed.
  Lemma told_fail X (e : eff X) x : fail_ans e = Some x → told false X e x.
  Proof. destruct e; cbn; try done; intros [= <-]; done. Qed.

  (** *** The programs *)
  Definition oth (j : job M) : Prop := jid j ≠ id.
  Definition otht (t : task M) : Prop := oth (t_orig t) ∧ oth (t_job t).
  Notation T := (λ _, True).
  Definition okj (r : result (job M)) : Prop := match r with Ok j => oth j | Err _ => True end.
  Definition okjs (r : result (list (job M))) : Prop := match r with Ok js => Forall oth js | Err _ => True end.

  Lemma may_upsert (j : job M) : oth j → may _ (SUpsert STORAGE_HASH (jid j) (enc_job j)).
  Proof.
    intros Hj. split; [exact Hj|]. intros js j' E1 E2. unfold jid. by rewrite (dec_enc_ctx _ _ _ E1 E2).
  Qed.
  Lemma sf_upsert s (j : job M) : oth j → safe s (upsert_to_storage (jid j) j) T.
  Proof. intros Hj. split; [by apply may_upsert|done]. Qed.
  Lemma sf_save s (j : job M) : oth j → safe s (save_and_notify j) okj.
  Proof.
    intros Hj. unfold save_and_notify. apply safe_bind with (R := T); [by apply sf_upsert|].
    intros [[]|e] _; [|done]. apply safe_bind with (R := T); [by split|]. by intros ? _.
  Qed.
  Lemma sf_stamp s (f : Z → job M) : (∀ t, oth (f t)) → safe s (let! t := get_now_as_ms in save_and_notify (f t)) okj.
  Proof.
    intros Hf. apply safe_bind with (R := T); [by split|]. intros t _. by apply sf_save.
  Qed.
  Lemma sf_get s k :
    safe s (get_from_storage (M := M) k) (λ r, ∃ o, r = Ok o ∧
      (∀ j, o = Some j → jid j = k ∧ (k = id → j = j0)) ∧ (s = true → k = id → o = Some j0)).
  Proof.
    unfold get_from_storage. cbn. split; [done|]. intros x Hx. destruct (Hx eq_refl) as [H1 H2]. eexists. split; [done|]. split.
    - intros j. destruct x as [[[js|]|]|]; try done. intros E. by eapply H1.
    - intros Hs Hk. destruct (H2 Hs Hk) as (js & -> & E). done.
  Qed.
  Lemma sf_enqueue s q (j : job M) : oth j → safe s (enqueue q j) T.
  Proof.
    intros Hj. unfold enqueue. apply safe_bind with (R := T); [by split|]. intros [[]|e] _; [|done].
    eapply safe_bind; [by apply (sf_stamp s (enq j))|]. by intros [] _.
  Qed.
  Lemma sf_re_enqueue s q (j : job M) : oth j → safe s (re_enqueue q j) T.
  Proof.
    intros Hj. unfold re_enqueue. apply safe_bind with (R := T); [by split|]. intros [[]|e] _; [|done].
    eapply safe_bind; [by apply (sf_stamp s (enq j))|]. intros [j'|e] H; [|done].
    apply safe_bind with (R := T); [by split|]. by intros [] _.
  Qed.
  Lemma sf_removed s q x : x ≠ id → safe s (remove_processing_job q x) T.
  Proof. intros H. unfold remove_processing_job. apply safe_bind with (R := T); [by split|done]. Qed.
  Lemma sf_finished s q (j : job M) : oth j → safe s (mark_job_is_finished q j) T.
  Proof.
    intros Hj. unfold mark_job_is_finished. eapply safe_bind; [by apply sf_removed|]. intros _ _.
    eapply safe_bind; [by apply (sf_stamp s (WorldFacts.fin j))|]. intros [j'|e] H; [|done].
    apply safe_bind with (R := T); [by split|]. by intros [] _.
  Qed.
  Lemma sf_failed s q (j : job M) : oth j → safe s (mark_job_is_failed q j) T.
  Proof.
    intros Hj. unfold mark_job_is_failed.
    eapply safe_bind; [by apply (sf_stamp s (fai j))|]. intros [j'|e] H; [|done].
    unfold push_failed_job. apply safe_bind with (R := T); [|done].
    eapply safe_bind; [by apply sf_removed|]. intros _ _. apply safe_bind with (R := T); [by split|]. done.
  Qed.
  Lemma sf_next_tick s i (j : job M) :
    oth j → safe s (next_tick (prof i) (sched i) j) (λ o, match o with Some j' => oth j' | None => True end).
  Proof.
    intros H. unfold next_tick. apply safe_bind with (R := T); [by split|]. intros now _.
    destruct (jtype (ctx j)) as [| |expr slot total cc]; try done.
    destruct (sched i expr) as [aft|]; [|done]. apply safe_bind with (R := T); [by split|]. intros now2 _. cbv zeta.
    destruct (aft now2) as [up|]; [destruct (i32_norm _ (total + 1)) as [n'|]; [|done]|];
      (destruct (match max_repeat cc with Some m => m <? total | None => false end); [done|];
       by destruct (match end_at cc with Some e => e <? _ | None => false end)).
  Qed.
  Lemma sf_tail s i q (o j : job M) u : oth o → oth j → safe s (task_tail (prof i) (sched i) q o j u) T.
  Proof.
    intros Ho Hj. unfold task_tail.
    assert (∀ (j : job M) b, oth j → safe s (execute_finish (prof i) (sched i) q j b) T) as Hfin.
    { intros j' b H. unfold execute_finish. eapply safe_bind; [by apply sf_next_tick|].
      intros [nj|] Hn; [by apply sf_re_enqueue|]. destruct b; [by apply sf_failed|by apply sf_finished]. }
    apply safe_bind with (R := T).
    - unfold execute_tail. destruct (jretry (ctx j)) as [r|]; [|by apply Hfin]. apply safe_bind with (R := T).
      + unfold call_retry_at. destruct (ur_retry u); [|done]. destruct (_ && _); [|done].
        apply safe_bind with (R := T); [by split|]. intros t _. by destruct (retry_retry_at _ _ _) as [[]|].
      + intros [r' [t'|]] _; [by apply sf_re_enqueue|by apply Hfin].
    - intros [u'|e] _; [done|]. eapply safe_bind; [by apply sf_failed|done].
  Qed.
  Lemma sf_task s i q t u :
    otht t → safe s (task_step (prof i) (sched i) q t u)
      (λ r, match r.1 with Some t' => otht t' | None => True end ∧ Forall oth r.2).
  Proof.
    intros [Ho Hj]. assert (Forall oth []) as Hnil by constructor. unfold task_step. destruct (t_phase t).
    - destruct (is_cancelled (t_job t)).
      + apply safe_bind with (R := T); [|done]. unfold mark_job_is_canceled. apply safe_bind with (R := T); [by split|done].
      + apply safe_bind with (R := T); [by split|]. done.
    - split; [done|]. by apply Forall_singleton.
    - apply safe_bind with (R := T); [by split|]. done.
    - eapply safe_bind; [by apply sf_tail|]. done.
  Qed.
  Lemma sf_run s q (j : job M) c : (s = true ∨ oth j) → safe s (run_with_config q j c) T.
  Proof.
    intros Hs. unfold run_with_config. eapply safe_bind; [apply sf_get|]. intros r (o & -> & H1 & H2).
    destruct (decide (jid j = id)) as [Hid|Hne].
    - destruct Hs as [Hs|Hs]; [|done]. rewrite (H2 Hs Hid).
      assert (is_running j0 = true ∧ is_done j0 = false) as [-> ->].
      { unfold is_running, is_done. by rewrite H0. }
      rewrite !andb_false_r. done.
    - destruct o as [ex|]; [|by apply sf_enqueue].
      apply safe_bind with (R := T).
      + destruct (override_data c && negb (is_running ex)); [by apply sf_upsert|done].
      + intros [[]|e] _; [|done]. destruct (re_run c && is_done ex); [|done].
        eapply safe_bind; [by apply sf_enqueue|]. by intros [] _.
  Qed.
  Lemma sf_cancel s q k : safe s (cancel_job (M := M) q k) T.
  Proof.
    unfold cancel_job. eapply safe_bind; [apply sf_get|]. intros r ([j|] & -> & H1 & _); [|done].
    destruct (is_queued j) eqn:Eq; [|done].
    destruct (H1 j eq_refl) as [Hk Hj].
    assert (k ≠ id) as Hne. { intros Hi. rewrite (Hj Hi) in Eq. unfold is_queued in Eq. by rewrite H0 in Eq. }
    assert (oth j) as Ho by (unfold oth; congruence).
    eapply safe_bind; [by apply (sf_stamp s (can j))|]. intros [j'|e] _; [|done].
    apply safe_bind with (R := T); [by split|]. by intros [[]|e] _.
  Qed.
  Lemma sf_retry s q k : safe s (retry_job (M := M) q k) T.
  Proof.
    unfold retry_job. eapply safe_bind; [apply sf_get|]. intros r ([j|] & -> & H1 & _); [|done].
    destruct (is_done j) eqn:Eq; [|done].
    destruct (H1 j eq_refl) as [Hk Hj].
    assert (k ≠ id) as Hne. { intros Hi. rewrite (Hj Hi) in Eq. unfold is_done in Eq. by rewrite H0 in Eq. }
    assert (oth j) as Ho by (unfold oth; congruence).
    eapply safe_bind; [by apply sf_re_enqueue|]. by intros [[]|e] _.
  Qed.
  Lemma sf_batch s i total ids ready :
    id ∉ ids → Forall oth ready → safe s (pick_batch (name i) total ids ready) okjs.
  Proof using Hnum.
    revert ready. induction ids as [|k ids IH]; intros ready Hi Hr; cbn [pick_batch]; [done|].
    apply not_elem_of_cons in Hi as [Hk Hi].
    assert (safe s (let? _ := do (QMove (format_queue_name (name i) Queued) (format_queue_name (name i) Queued) 1 Back Front) in
        pick_batch (name i) total ids ready) okjs) as Hrot.
    { apply safe_bind with (R := T); [split; [apply Hnum|done]|]. intros [l|e] _; [by apply IH|done]. }
    eapply safe_bind; [apply sf_get|]. intros r ([j|] & -> & H1 & _); [|exact Hrot]. cbn [bind].
    destruct (H1 j eq_refl) as [Hj _]. assert (oth j) as Ho by (unfold oth; congruence).
    apply safe_bind with (R := T); [by split|]. intros now _.
    destruct (_ && _ && _); [|exact Hrot].
    eapply safe_bind; [by apply (sf_stamp s (prc j))|]. intros [j'|e] Hj'; [|done].
    apply safe_bind with (R := T); [split; [apply Hnum|done]|]. intros [l|e] _; [|done]. apply IH; [done|].
    apply Forall_app. split; [done|]. by apply Forall_singleton.
  Qed.
  Lemma sf_loop s i fuel total ready cursor :
    Forall oth ready → safe s (pick_loop (prof i) (name i) fuel total ready cursor) okjs.
  Proof using Hnum.
    revert ready cursor. induction fuel as [|fuel IH]; intros ready cursor Hr; cbn [pick_loop]; [done|].
    split; [done|]. intros x Hx. cbn [bind]. destruct x as [ids|e]; [|done]. cbn in Hx. cbn [bind].
    destruct (i32_norm _ _) as [c|]; [|done]. eapply safe_bind; [apply sf_batch; [|done]; by apply Hx|].
    intros [rd|e] Hrd; [|done]. destruct (total <=? length rd)%nat; [done|]. destruct (c <=? 0); [done|]. by apply IH.
  Qed.
  Lemma sf_do_tick s n i c (ts : list (task M)) :
    Forall otht ts → safe s (do_tick prof name n i c ts) (Forall otht).
  Proof using Hnum.
    intros Hts. unfold do_tick. apply safe_bind with (R := okjs).
    - unfold pick_jobs. apply safe_bind with (R := T); [by split|]. intros r _. cbv zeta.
      destruct (_ <=? _)%nat; [constructor|]. unfold try_pick. apply safe_bind with (R := T); [by split|].
      intros [len|e] _; [|done]. apply sf_loop. constructor.
    - intros [js|e] Hjs; [|done]. cbn. apply Forall_app. split; [done|]. apply Forall_map.
      eapply list.Forall_impl; [exact Hjs|]. intros j Hj. by split.
  Qed.
  Definition sane (r : step_result (M := M)) : Prop := Forall otht r.1.1.2 ∧ Forall oth r.1.2.
  Definition of_id (e : event M) : bool := match e with EvEnqueue j _ => bool_decide (jid j = id) | _ => false end.
  Lemma sf_step n i c ts e : Forall otht ts → safe (of_id e) (step_of prof sched name n i c ts e) sane.
  Proof using Hnum H0.
    intros Ht. assert (Forall oth []) as Hnil by constructor. assert (Forall otht []) as Hnil' by constructor.
    destruct e as [j ec|k|k|k|c'| |a u| | |e m|]; cbn [step_of ev_prog].
    - eapply safe_bind; [apply sf_run|by intros ? _]. unfold of_id, oth. destruct (bool_decide_reflect (jid j = id)); auto.
    - eapply safe_bind; [apply sf_cancel|by intros ? _].
    - unfold get_job. eapply safe_bind; [apply sf_get|by intros ? _].
    - eapply safe_bind; [apply sf_retry|by intros ? _].
    - done.
    - eapply safe_bind; [by apply sf_do_tick|]. intros ts' H. by split.
    - destruct (ts !! a) as [t|] eqn:Et; [|done].
      assert (otht t) as Hot by exact (Forall_lookup_1 otht ts a t Ht Et).
      eapply safe_bind; [by apply sf_task|]. intros [[t'|] js] [H1 H2]; cbn in *.
      + split; [by apply Forall_insert|done].
      + split; [by apply Forall_delete|done].
    - by split.
    - by split.
    - by split.
    - eapply safe_bind; [by apply sf_do_tick|]. intros ts' H. by split.
  Qed.

  (** *** The race *)
  Implicit Types r : race M world.
  Notation rstep := (race_step prof sched name (λ i, mem_h (clock i))).
  Definition pok (p : proc M) : Prop :=
    Forall otht (p_tasks p) ∧ match p_now p with Some (e, q) => safe (of_id e) q sane | None => True end.
  Definition linv (old : list (nat * job M)) r : Prop :=
    lim (r_world r) ∧ (∀ i p, r_procs r !! i = Some p → pok p) ∧ executions id r = old.
  Lemma linv_put old r i p : linv old r → pok p → linv old (put r i p).
  Proof using.
    intros (H1 & H2 & H3) Hp. split; [done|]. split; [|done]. intros i' p'. cbn.
    intros [(<- & <- & _)|[_ H]]%list_lookup_insert_Some; [done|by eapply H2].
  Qed.
  Lemma gone_pok (p : proc M) : pok (gone p).
  Proof using. split; [constructor|done]. Qed.
  Lemma linv_step old r x : linv old r → submissions_work id r x → linv old (rstep r x).
  Proof using Hnum H0.
    intros Hr Hx. destruct x as [i e n|i f|i]; cbn [race_step]; destruct (r_procs r !! i) as [p|] eqn:Ep; try done.
    - apply linv_put; [done|]. pose proof Hr as (_ & H2 & _). destruct (H2 i p Ep) as [Ht Hn].
      unfold race_begin. destruct (p_now p) as [[e' c]|] eqn:En; [split; [done|by rewrite En]|].
      pose proof (sf_step n i (p_cfg p) (p_tasks p) e Ht) as Hs.
      destruct (p_alive p); destruct e; first [apply gone_pok|split; [exact Ht|]; first [exact Hs|by rewrite En]].
    - pose proof Hr as (H1 & H2 & H3). destruct (H2 i p Ep) as [Ht Hn].
      unfold race_call. destruct (p_now p) as [[e q]|] eqn:En; [|done].
      destruct q as [[[[c ts] js] a]| | |X e' k].
      + destruct Hn as [N1 N2]. cbn in N1, N2. split; [done|]. split; cbn.
        * intros i' p'. intros [(<- & <- & _)|[_ H]]%list_lookup_insert_Some; [by split|by eapply H2].
        * unfold executions. cbn. rewrite list.filter_app.
          replace (filter _ (map (pair i) js)) with (@nil (nat * job M)); [by rewrite app_nil_r|]. symmetry. clear -N2.
          induction N2 as [|j js Hj _ IH]; [done|]. cbn [map]. by rewrite filter_cons_False.
      + apply linv_put; [done|apply gone_pok].
      + apply linv_put; [done|apply gone_pok].
      + cbn in Hn. destruct Hn as [N1 N2]. cbn in Hx.
        assert (∀ w' x, lim w' → told (of_id e) X e' x →
          linv old (Race w' (<[i := Proc (p_cfg p) (p_tasks p) (p_alive p) (Some (e, k x))]> (r_procs r)) (r_runs r) (r_answers r)))
          as Hgo.
        { intros w' x A1 A2. split; [done|]. split; [|done]. cbn. intros i' p'.
          intros [(<- & <- & _)|[_ H]]%list_lookup_insert_Some; [|by eapply H2]. split; [done|]. by apply N2. }
        pose proof (lim_call (clock i) X e' (r_world r) H1 N1) as HL.
        pose proof (lim_told (clock i) X e' (r_world r) H1) as HT.
        assert (told (of_id e) X e' (mem_h (clock i) X e' (r_world r)).2) as HT'.
        { destruct (of_id e); [done|by apply told_weak]. }
        assert (f = FOk ∨ of_id e = false) as Hf.
        { destruct (of_id e) eqn:Ee; [left|by right]. apply Hx. unfold of_id in Ee. destruct e; try done.
          apply bool_decide_eq_true_1 in Ee. by repeat eexists. }
        unfold call_h. destruct (fail_ans e') as [bad|] eqn:Eb.
        * destruct f.
          -- destruct (mem_h (clock i) X e' (r_world r)) as [w' x]. by apply Hgo.
          -- destruct Hf as [|Hf]; [done|]. apply Hgo; [done|]. rewrite Hf. by apply told_fail.
          -- destruct Hf as [|Hf]; [done|]. apply Hgo; [done|]. rewrite Hf. by apply told_fail.
        * destruct (mem_h (clock i) X e' (r_world r)) as [w' x]. by apply Hgo.
    - apply linv_put; [done|apply gone_pok].
  Qed.
End adrift.

Section final.
  Context {M : Type} `{SM : Serde M} {SO : SerdeOk M}.
  Context (prof : nat → profile).
  Context (sched : nat → string → option (time → option time)).
  Context (name : nat → string).
  Context (clock : nat → nat → time).
  Notation rrun := (race_run prof sched name (λ i, mem_h (clock i))).
  Notation ralong := (ralong prof sched name clock).
  Implicit Types r : race M world.

  Lemma adrift_stays r id j xs :
    adrift name r id j → ralong (submissions_work id) r xs →
    let z := rrun r xs in
    stored (r_world z) id = Some j ∧
    (∀ q s, occurs id (qlist q (r_world z) s) = occurs id (qlist q (r_world r) s)) ∧
    (∀ i p, r_procs z !! i = Some p → ∀ t, t ∈ p_tasks p → jid (t_orig t) ≠ id ∧ jid (t_job t) ≠ id) ∧
    executions id z = executions id r.
  Proof.
    intros (H1&H2&H3&H4&H5) Hx. cbv zeta.
    assert (∀ i, occurs id (ql (st (r_world r)) (format_queue_name (name i) Queued)) = 0%nat) as Hn.
    { intros i. apply occurs_none, H4. }
    pose proof (ralong_inv prof sched name clock
      (linv id j (λ l, occurs id (ql (st (r_world r)) l)) (executions id r)) (submissions_work id) r xs) as H.
    destruct H as (A1 & A2 & A3); [| |done|].
    - intros r' x Hr' Hx'. by apply linv_step.
    - split; [by split|]. split; [|done]. intros i p Hp. destruct (H5 i p Hp) as [E1 E2]. split; [|by rewrite E1].
      apply list.Forall_forall. exact E2.
    - destruct A1 as (B1 & B2 & B3). split; [done|]. split; [intros q s; apply B3|]. split; [|done].
      intros i p Hp. destruct (A2 i p Hp) as [E _]. by apply list.Forall_forall.
  Qed.

  Lemma keyed_after n (xs : list (race_event M)) : keyed (M := M) (r_world (race_after prof sched name clock n xs)).
  Proof.
    intros k j Hj. destruct (race_payload prof sched name clock (λ _ _, True) n xs) as [H _]; [|by apply H].
    apply ralong_forall with (P := λ _, True); [|by apply list.Forall_forall].
    intros r' x _. destruct x as [i e fuel| |]; [|done..]. destruct e; try done. 
  Qed.
  Lemma power_cut_unattended r n id :
    (length (r_procs r) <= n)%nat →
    r_world (rrun r (power_cut n)) = r_world r ∧ unattended (rrun r (power_cut n)) id ∧
    executions id (rrun r (power_cut n)) = executions id r.
  Proof.
    assert (∀ n r, r_world (rrun r (power_cut n)) = r_world r ∧ r_runs (rrun r (power_cut n)) = r_runs r ∧
      r_procs (rrun r (power_cut n)) = map gone (take n (r_procs r)) ++ drop n (r_procs r)) as Hgen.
    { clear. induction n as [|n IH]; intros r; [done|]. unfold power_cut. rewrite seq_S, map_app. unfold race_run.
      rewrite fold_left_app. destruct (IH r) as (E1&E2&E3). fold (rrun r (power_cut n)). 
      change (fold_left _ (map RDie (seq 0 n)) r) with (rrun r (power_cut n)).
      set (r1 := rrun r (power_cut n)) in *. cbn [map fold_left race_step Nat.add].
      destruct (r_procs r !! n) as [p|] eqn:Ep.
      - assert (r_procs r1 !! n = Some p) as ->.
        { rewrite E3. pose proof (lookup_lt_Some _ _ _ Ep). rewrite lookup_app_r; rewrite map_length, take_length; [|lia].
          rewrite Nat.min_l by lia. rewrite Nat.sub_diag. rewrite lookup_drop. by rewrite Nat.add_0_r. }
        cbn. rewrite E1, E2, E3. split; [done|]. split; [done|].
        pose proof (lookup_lt_Some _ _ _ Ep).
        rewrite (take_S_r _ _ _ Ep), map_app, <-app_assoc. cbn [map app].
        rewrite insert_app_r_alt; rewrite map_length, take_length; [|lia]. rewrite Nat.min_l by lia. rewrite Nat.sub_diag.
        by rewrite (drop_S _ _ _ Ep).
      - assert (r_procs r1 !! n = None) as ->.
        { rewrite E3. apply lookup_ge_None_1 in Ep. apply lookup_ge_None_2. rewrite app_length, map_length, take_length, drop_length. lia. }
        apply lookup_ge_None_1 in Ep. rewrite E1, E2, E3. split; [done|]. split; [done|].
        by rewrite !take_ge, !drop_ge by lia. }
    intros Hn. destruct (Hgen n r) as (E1&E2&E3). split; [done|]. split; [|unfold executions; by rewrite E2].
    rewrite take_ge, drop_ge, app_nil_r in E3 by done. intros i p Hp. rewrite E3 in Hp.
    rewrite list_lookup_fmap in Hp. destruct (r_procs r !! i) as [p'|]; [|done]. injection Hp as <-.
    split; [done|]. by intros t ?%elem_of_nil.
  Qed.
  Lemma procs_length r xs : length (r_procs (rrun r xs)) = length (r_procs r).
  Proof.
    unfold race_run. revert r. induction xs as [|x xs IH]; intros r; [done|]. cbn [fold_left]. rewrite IH.
    destruct x as [i e fuel|i f|i]; cbn [race_step]; destruct (r_procs r !! i) as [p|]; try done;
      cbn; rewrite ?insert_length; try done.
    unfold race_call. destruct (p_now p) as [[e [[[[c ts] js] a]| | |X e' k]]|]; cbn; rewrite ?insert_length; try done.
    destruct (call_h _ _ _ _ _). cbn. by rewrite insert_length.
  Qed.
  Lemma cut_off n (xs ys : list (race_event M)) id j :
    let r := race_after prof sched name clock n xs in
    let r' := rrun r (power_cut n) in
    stored (r_world r) id = Some j → jstatus (ctx j) = Running →
    (∀ i, id ∉ qlist (name i) (r_world r) Queued) →
    ralong (submissions_work id) r' ys →
    let z := rrun r' ys in
    stored (r_world z) id = Some j ∧
    (∀ q s, occurs id (qlist q (r_world z) s) = occurs id (qlist q (r_world r) s)) ∧
    executions id z = executions id r.
  Proof.
    intros r r' H1 H2 H3 H4. cbv zeta.
    destruct (power_cut_unattended r n id) as (E1&E2&E3).
    { unfold r, race_after. rewrite procs_length. cbn. by rewrite repeat_length. }
    fold r' in E1, E2, E3.
    destruct (adrift_stays r' id j ys) as (A1&A2&_&A3); [|done|].
    - split; [rewrite E1; apply keyed_after|]. rewrite E1. done.
    - rewrite E1 in A2. rewrite E3 in A3. done.
  Qed.
End final.

(** *** A check of the condition on a given race *)
Section check.
  Context {M : Type} `{SM : Serde M}.
  Context (prof : nat → profile).
  Context (sched : nat → string → option (time → option time)).
  Context (name : nat → string).
  Context (clock : nat → nat → time).
  Definition works_b (id : string) (r : race M world) (x : race_event M) : bool :=
    match x with
    | RCall i FOk => true
    | RCall i _ =>
        match r_procs r !! i with
        | Some p => match p_now p with Some (EvEnqueue j _, _) => negb (String.eqb (jid j) id) | _ => true end
        | None => true
        end
    | _ => true
    end.
  Fixpoint all_work (id : string) (r : race M world) (xs : list (race_event M)) : bool :=
    match xs with
    | [] => true
    | x :: xs' => works_b id r x && all_work id (race_step prof sched name (λ i, mem_h (clock i)) r x) xs'
    end.
  Lemma all_work_along id r xs : all_work id r xs = true → ralong prof sched name clock (submissions_work id) r xs.
  Proof.
    revert r. induction xs as [|x xs IH]; intros r; cbn [all_work ralong]; [done|]. intros [H1 H2]%andb_prop.
    split; [|by apply IH]. destruct x as [i e n|i f|i]; cbn; try done. intros (p & j & c & q & E1 & E2 & E3).
    cbn in H1. rewrite E1, E2, E3, String.eqb_refl in H1. by destruct f.
  Qed.
End check.
