(** The picking loop of a tick, for waiting lists of any length. *)
From Verif Require Import Spec JsonFacts BackendFacts WorldFacts MicroFacts LifeFacts HistFacts SubmitFacts LifeProps ListFacts ApiFacts.

Lemma list_filter_iff' {A} (P1 P2 : A → Prop) `{!∀ x, Decision (P1 x), !∀ x, Decision (P2 x)} (l : list A) :
  (∀ x, x ∈ l → (P1 x ↔ P2 x)) → filter P1 l = filter P2 l.
Proof.
  intros HP. induction l as [|x l IH]; [done|]. rewrite !filter_cons, IH by (intros; apply HP; by right).
  specialize (HP x ltac:(by left)). destruct (decide (P1 x)), (decide (P2 x)); tauto.
Qed.

Section pick.
  Context {M : Type} `{SM : Serde M} {SO : SerdeOk M}.
  Context (prof : profile).
  Context (sched : string → option (time → option time)).
  Context (name : string).
  Context (clock : nat → time).
  Notation h := (mem_h clock).
  Notation qlist := (qlist name).
  Notation stored := (@stored M SM).
  Notation sys := (sys world M).
  Notation step := (sys_step prof sched name h).

  (** The stored jobs carry the id they are stored under. *)
  Definition keyed (w : world) : Prop := ∀ id j, stored w id = Some j → jid j = id.

  (** Why an id was left waiting between the clock readings [k0] and [k1]. *)
  Definition left_ (w : world) (k1 : nat) (id : string) : Prop :=
    stored w id = None ∨
    ∃ j k, stored w id = Some j ∧ (reads w <= k < k1)%nat ∧ is_ready j (clock k) = false.

  (** [j'] is the job picked from the world [w] at a reading before [k1]. *)
  Definition picked (w : world) (k1 : nat) (j' : job M) : Prop :=
    ∃ j k, stored w (jid j') = Some j ∧ j' = prc j (ms_of (clock (S k))) ∧
      (reads w <= k)%nat ∧ (S k < k1)%nat ∧ is_ready j (clock k) = true.

  Lemma left_later w w' k1 k1' id :
    (reads w <= reads w')%nat → (k1 <= k1')%nat → stored w' id = stored w id →
    left_ w' k1 id → left_ w k1' id.
  Proof.
    unfold left_. intros Hr Hk ->. intros [?|(j & k & Hs & Hk' & Hf)]; [by left|].
    right. exists j, k. split; [done|]. split; [lia|done].
  Qed.
  Lemma picked_later w w' k1 k1' j' :
    (reads w <= reads w')%nat → (k1 <= k1')%nat → stored w' (jid j') = stored w (jid j') →
    picked w' k1 j' → picked w k1' j'.
  Proof.
    unfold picked. intros Hr Hk ->. intros (j & k & Hs & -> & H1 & H2 & H3). exists j, k.
    repeat (split; [done || lia|]). done.
  Qed.

  Lemma ready_has (ready : list (job M)) id :
    existsb (λ rj, String.eqb (jid rj) id) ready = true ↔ id ∈ map jid ready.
  Proof.
    rewrite existsb_exists, elem_of_list_In, in_map_iff. split.
    - intros (x & Hx & E). exists x. split; [by apply String.eqb_eq|done].
    - intros (x & E & Hx). exists x. split; [done|by apply String.eqb_eq].
  Qed.

  Lemma rev_snoc {A} (l : list A) x r : rev l = x :: r → l = rev r ++ [x].
  Proof. intros E. by rewrite <-(rev_involutive l), E. Qed.

  Lemma scan_batch_spec total ids rest ready w :
    rev (qlist w Queued) = ids ++ rest → keyed w →
    let r := scan_batch name clock total ids ready w in
    ∃ kept new,
      r.2 = ready ++ new ∧ rev (qlist r.1 Queued) = rest ++ kept ∧
      qlist r.1 Running = rev (map jid new) ++ qlist w Running ∧
      (∀ st, st ≠ Queued → st ≠ Running → qlist r.1 st = qlist w st) ∧
      ids ≡ₚ kept ++ map jid new ∧
      (reads w <= reads r.1)%nat ∧ keyed r.1 ∧
      (∀ id, id ∉ map jid new → stored r.1 id = stored w id) ∧
      (length (ready ++ new) <= Nat.max (length ready) total)%nat ∧
      NoDup (map jid new) ∧ (∀ id, id ∈ map jid new → id ∉ map jid ready) ∧
      (∀ j', j' ∈ new → picked w (reads r.1) j') ∧
      (∀ id, id ∈ kept → left_ w (reads r.1) id ∨ (total <= length r.2)%nat ∨ id ∈ map jid r.2).
  Proof.
    revert rest ready w. induction ids as [|id ids IH]; intros rest ready w Hq Hk.
    { exists [], []. cbn -[Spec.qlist]. rewrite !app_nil_r. cbn in Hq. repeat (split; [done || lia || set_solver|]).
      split; [constructor|]. set_solver. }
    cbn [scan_batch]. cbn [app] in Hq. apply rev_snoc in Hq. rewrite rev_app_distr in Hq.
    (* the id is rotated to the front *)
    assert (∀ w1, (∀ s, qlist w1 s = qlist w s) → (∀ k, stored w1 k = stored w k) →
      (reads w <= reads w1)%nat →
      (∀ (r2 : list (job M)) k1, (reads w1 <= k1)%nat → (length ready <= length r2)%nat → (∀ x, x ∈ map jid ready → x ∈ map jid r2) →
         left_ w k1 id ∨ (total <= length r2)%nat ∨ id ∈ map jid r2) →
      let r := scan_batch name clock total ids ready (w_move name w1 Queued Queued) in
      ∃ kept new,
      r.2 = ready ++ new ∧ rev (qlist r.1 Queued) = rest ++ kept ∧
      qlist r.1 Running = rev (map jid new) ++ qlist w Running ∧
      (∀ st, st ≠ Queued → st ≠ Running → qlist r.1 st = qlist w st) ∧
      id :: ids ≡ₚ kept ++ map jid new ∧
      (reads w <= reads r.1)%nat ∧ keyed r.1 ∧
      (∀ id, id ∉ map jid new → stored r.1 id = stored w id) ∧
      (length (ready ++ new) <= Nat.max (length ready) total)%nat ∧
      NoDup (map jid new) ∧ (∀ id, id ∈ map jid new → id ∉ map jid ready) ∧
      (∀ j', j' ∈ new → picked w (reads r.1) j') ∧
      (∀ id, id ∈ kept → left_ w (reads r.1) id ∨ (total <= length r.2)%nat ∨ id ∈ map jid r.2)) as Hrot.
    { intros w1 Hq1 Hs1 Hr1 Hwhy. set (w2 := w_move name w1 Queued Queued).
      assert (∀ s, qlist w2 s = if bool_decide (s = Queued) then id :: rev (ids ++ rest) else qlist w s) as Hq2.
      { intros s. unfold w2. rewrite (qlist_rotate name w1 (rev (ids ++ rest)) id) by by rewrite Hq1, Hq, rev_app_distr.
        destruct (bool_decide _); [done|apply Hq1]. }
      assert (∀ k, stored w2 k = stored w k) as Hs2 by (intros k; unfold w2; by rewrite stored_move, Hs1).
      destruct (IH (rest ++ [id]) ready w2) as (kept & new & H1 & H2 & H3 & H4 & H5 & H6 & H7 & H8 & H9 & H10 & H11 & H12 & H13).
      { rewrite Hq2, bool_decide_true by done. cbn [rev]. by rewrite rev_involutive, app_assoc. }
      { intros k j. rewrite Hs2. apply Hk. }
      exists (id :: kept), new. rewrite H2, H3. cbn zeta.
      assert (reads w <= reads w2)%nat as Hr2 by exact Hr1.
      split; [done|]. split; [by rewrite <-app_assoc|].
      split; [rewrite Hq2, bool_decide_false by done; done|].
      split; [intros st H14 H15; rewrite H4, Hq2, bool_decide_false by done; done|].
      split; [by rewrite H5|]. split; [lia|]. split; [done|].
      split; [intros k Hkk; by rewrite H8|]. split; [done|]. split; [done|]. split; [done|].
      split.
      - intros j' Hj'. eapply picked_later; [exact Hr2|apply le_n|apply Hs2|by apply H12].
      - intros k Hkk. apply elem_of_cons in Hkk as [->|Hkk].
        + apply Hwhy; [exact H6|rewrite H1, app_length; lia|].
          intros x Hx. rewrite H1, map_app. set_solver.
        + destruct (H13 k Hkk) as [Hl|[Hl|Hl]]; [left|auto|auto].
          eapply left_later; [exact Hr2|apply le_n|apply Hs2|exact Hl]. }
    destruct (stored w id) as [j|] eqn:Hs.
    2:{ apply Hrot; try done. intros. left. by left. }
    destruct (is_ready j (clock (reads w)) && (length ready <? total)%nat
               && negb (existsb (λ rj, String.eqb (jid rj) (jid j)) ready)) eqn:Hc.
    2:{ apply Hrot; [done|done|cbn; lia|]. intros r2 k1 Hk1 Hl Hsub.
        apply andb_false_iff in Hc as [Hc|Hc]; [apply andb_false_iff in Hc as [Hc|Hc]|].
        - left. right. exists j, (reads w). cbn in Hk1. split; [done|]. split; [lia|done].
        - apply Nat.ltb_ge in Hc. right. left. lia.
        - apply negb_false_iff in Hc. apply ready_has in Hc. right. right. apply Hsub.
          by rewrite (Hk _ _ Hs) in Hc. }
    apply andb_true_iff in Hc as [Hc Hnot]. apply andb_true_iff in Hc as [Hrdy Hlen].
    apply Nat.ltb_lt in Hlen. apply negb_true_iff in Hnot.
    pose proof (Hk _ _ Hs) as Hid.
    assert (id ∉ map jid ready) as Hnin.
    { intros Hin. apply ready_has in Hin. rewrite Hid in Hnot. congruence. }
    clear Hrot.
    set (j' := prc j (now_ms clock (w_tick w))). set (w1 := w_save (w_tick (w_tick w)) j').
    set (w2 := w_move name w1 Queued Running).
    assert (jid j' = id) as Hid' by exact Hid.
    assert (qlist w1 Queued = rev (ids ++ rest) ++ [id]) as Hq1.
    { unfold w1. rewrite qlist_save, !qlist_tick, Hq. by rewrite rev_app_distr. }
    assert (∀ s, qlist w2 s = match s with Queued => rev (ids ++ rest) | Running => id :: qlist w Running | _ => qlist w s end) as Hq2.
    { intros s. unfold w2. rewrite (qlist_pick name w1 _ id s Hq1). unfold w1.
      destruct s; by rewrite ?qlist_save, ?qlist_tick. }
    assert (∀ k, stored w2 k = if bool_decide (k = id) then Some (norm_job j') else stored w k) as Hs2.
    { intros k. unfold w2, w1. rewrite stored_move, stored_save, Hid'. done. }
    destruct (IH rest (ready ++ [j']) w2) as (kept & new & H1 & H2 & H3 & H4 & H5 & H6 & H7 & H8 & H9 & H10 & H11 & H12 & H13).
    { rewrite Hq2. by rewrite rev_involutive. }
    { intros k jj. rewrite Hs2. destruct (bool_decide_reflect (k = id)) as [->|]; [intros [= <-]; done|apply Hk]. }
    assert (S (S (reads w)) <= reads (scan_batch name clock total ids (ready ++ [j']) w2).1)%nat as Hrd by exact H6.
    assert (id ∉ map jid new) as Hnn.
    { intros Hin. apply (H11 id Hin). rewrite map_app. cbn. set_solver. }
    exists kept, (j' :: new). rewrite H2, H3, H1.
    split; [by rewrite <-app_assoc|]. split; [done|].
    split; [rewrite Hq2; cbn [map rev]; rewrite <-app_assoc, Hid'; done|].
    split; [intros st Hn1 Hn2; rewrite H4, Hq2 by done; by destruct st|].
    split; [cbn [map]; rewrite Hid', H5; by rewrite Permutation_middle|].
    split; [lia|]. split; [done|].
    split. { intros k Hkk. cbn [map] in Hkk. rewrite Hid' in Hkk. apply not_elem_of_cons in Hkk as [Hne Hkk].
      rewrite H8, Hs2 by done. by rewrite bool_decide_false. }
    split. { rewrite <-app_assoc in H9. cbn [app] in H9. rewrite !app_length in *. cbn in *. lia. }
    split. { cbn [map]. rewrite Hid'. by constructor. }
    split. { cbn [map]. rewrite Hid'. intros k Hkk. apply elem_of_cons in Hkk as [->|Hkk]; [done|].
      specialize (H11 k Hkk). rewrite map_app in H11. set_solver. }
    split.
    - intros jj Hjj. apply elem_of_cons in Hjj as [->|Hjj].
      + exists j, (reads w). rewrite Hid'. split; [done|]. split; [done|]. split; [lia|]. split; [lia|done].
      + assert (jid jj ≠ id) as Hne.
        { intros E. apply Hnn. rewrite <-E. by apply elem_of_list_fmap_1. }
        eapply (picked_later w w2); [cbn; lia|apply le_n| |by apply H12].
        rewrite Hs2. by rewrite bool_decide_false.
    - intros k Hkk. destruct (H13 k Hkk) as [Hl|[Hl|Hl]].
      + destruct (decide (k = id)) as [->|Hne].
        * right. right. rewrite !map_app. cbn. set_solver.
        * left. eapply (left_later w w2); [cbn; lia|apply le_n| |exact Hl]. rewrite Hs2. by rewrite bool_decide_false.
      + right. left. by rewrite H1 in Hl.
      + right. right. by rewrite H1 in Hl.
  Qed.

  (** The whole loop.  [pend] are the ids not yet looked at. *)
  Lemma scan_loop_spec fuel total ready cursor w pend seen w0 :
    rev (qlist w Queued) = pend ++ seen → cursor = Z.of_nat (length pend) →
    Z.of_nat (length pend) <= i32_max → (length pend < fuel)%nat →
    keyed w0 → keyed w → (reads w0 <= reads w)%nat →
    NoDup (qlist w0 Queued) →
    rev (qlist w0 Queued) ≡ₚ (pend ++ seen) ++ map jid ready →
    qlist w Running = rev (map jid ready) ++ qlist w0 Running →
    (∀ st, st ≠ Queued → st ≠ Running → qlist w st = qlist w0 st) →
    (∀ id, id ∉ map jid ready → stored w id = stored w0 id) →
    (length ready < total)%nat →
    (∀ j', j' ∈ ready → picked w0 (reads w) j') →
    (∀ id, id ∈ seen → left_ w0 (reads w) id) →
    let r := scan_loop prof name clock fuel total ready cursor w in
    r.2 = Done tt ∧ (reads w0 <= reads r.1.1)%nat ∧ keyed r.1.1 ∧
    rev (qlist w0 Queued) ≡ₚ rev (qlist r.1.1 Queued) ++ map jid r.1.2 ∧
    qlist r.1.1 Running = rev (map jid r.1.2) ++ qlist w0 Running ∧
    (∀ st, st ≠ Queued → st ≠ Running → qlist r.1.1 st = qlist w0 st) ∧
    (∀ id, id ∉ map jid r.1.2 → stored r.1.1 id = stored w0 id) ∧
    (length r.1.2 <= total)%nat ∧
    (∀ j', j' ∈ r.1.2 → picked w0 (reads r.1.1) j') ∧
    (length r.1.2 = total ∨ ∀ id, id ∈ qlist r.1.1 Queued → left_ w0 (reads r.1.1) id).
  Proof.
    revert ready cursor w pend seen. induction fuel as [|fuel IH]; intros ready cursor w pend seen; [lia|].
    intros Hq -> Hmax Hfuel Hk0 Hk Hr Hnd Hperm Hrun Hoth Hst Hlen Hpick Hleft.
    cbn [scan_loop]. rewrite Hq. set (ids := take BATCH (pend ++ seen)).
    assert (length ids = Nat.min 20 (length pend + length seen)) as Hids.
    { unfold ids. by rewrite take_length, app_length. }
    assert (i32_norm prof (Z.of_nat (length pend) - Z.of_nat (length ids)) =
      Some (Z.of_nat (length pend) - Z.of_nat (length ids))) as ->.
    { unfold i32_norm, in_i32. rewrite Hids. unfold i32_min, i32_max in *.
      rewrite (proj2 (Z.leb_le _ _)) by lia. rewrite (proj2 (Z.leb_le _ _)) by lia. done. }
    assert (rev (qlist w Queued) = ids ++ drop BATCH (pend ++ seen)) as Hq'.
    { rewrite Hq. unfold ids. by rewrite take_drop. }
    destruct (scan_batch_spec total ids (drop BATCH (pend ++ seen)) ready w Hq' Hk)
      as (kept & new & H1 & H2 & H3 & H4 & H5 & H6 & H7 & H8 & H9 & H10 & H11 & H12 & H13).
    destruct (scan_batch name clock total ids ready w) as [w' ready'] eqn:Esb. cbn [fst snd] in *. subst ready'.
    (* ids picked in this batch were not picked before, and nothing is both kept and picked *)
    assert (NoDup ((pend ++ seen) ++ map jid ready)) as HND.
    { rewrite <-Hperm. by rewrite <-Permutation_rev. }
    assert (pend ++ seen ≡ₚ (drop BATCH (pend ++ seen) ++ kept) ++ map jid new) as Hps.
    { rewrite <-(take_drop BATCH (pend ++ seen)) at 1. fold ids. rewrite H5. solve_Permutation. }
    assert (rev (qlist w0 Queued) ≡ₚ rev (qlist w' Queued) ++ map jid (ready ++ new)) as Hperm'.
    { rewrite H2, Hperm, map_app. etransitivity; [apply Permutation_app_tail, Hps|]. solve_Permutation. }
    assert (NoDup (rev (qlist w' Queued) ++ map jid (ready ++ new))) as HND'.
    { rewrite <-Hperm'. by rewrite <-Permutation_rev. }
    assert (qlist w' Running = rev (map jid (ready ++ new)) ++ qlist w0 Running) as Hrun'.
    { rewrite H3, Hrun, map_app, rev_app_distr. by rewrite app_assoc. }
    assert (∀ st, st ≠ Queued → st ≠ Running → qlist w' st = qlist w0 st) as Hoth'.
    { intros s Hn1 Hn2. rewrite H4 by done. by apply Hoth. }
    assert (∀ id, id ∉ map jid (ready ++ new) → stored w' id = stored w0 id) as Hst'.
    { intros k Hkk. rewrite map_app in Hkk. apply not_elem_of_app in Hkk as [Hn1 Hn2]. rewrite H8, Hst by done. done. }
    assert (∀ j', j' ∈ ready ++ new → picked w0 (reads w') j') as Hpick'.
    { intros j' Hj'. apply elem_of_app in Hj' as [Hj'|Hj'].
      - eapply (picked_later w0 w0); [done|exact H6|done|by apply Hpick].
      - eapply (picked_later w0 w); [done|apply le_n| |by apply H12]. apply Hst.
        intros Hin. eapply H11; [|exact Hin]. by apply elem_of_list_fmap_1. }
    assert (length (ready ++ new) <= total)%nat as Hle by lia.
    (* what was kept, if there is still room *)
    assert ((length (ready ++ new) < total)%nat → ∀ id, id ∈ kept → left_ w0 (reads w') id) as Hkept.
    { intros Hroom id Hin.
      assert (id ∉ map jid (ready ++ new)) as Hnin.
      { rewrite H2 in HND'. apply NoDup_app in HND' as (_ & Hd & _). apply Hd. apply elem_of_app. by right. }
      destruct (H13 id Hin) as [Hl|[Hl|Hl]]; [|lia|done].
      eapply (left_later w0 w); [done|apply le_n| |exact Hl]. apply Hst. rewrite map_app in Hnin. by apply not_elem_of_app in Hnin as [? _]. }
    destruct (total <=? length (ready ++ new))%nat eqn:Et.
    { apply Nat.leb_le in Et. cbn [fst snd]. split; [done|]. split; [lia|].
      split; [done|]. split; [done|]. split; [done|]. split; [done|]. split; [done|]. split; [done|]. split; [done|].
      left. lia. }
    apply Nat.leb_gt in Et. specialize (Hkept Et).
    destruct (decide (20 <= length pend)%nat) as [Hbig|Hsmall].
    - assert (drop BATCH (pend ++ seen) = drop BATCH pend ++ seen) as Hdrop.
      { by rewrite drop_app_le by (unfold BATCH; lia). }
      assert (length (drop BATCH pend) = (length pend - 20)%nat) as Hdl by by rewrite drop_length.
      destruct (Z.of_nat (length pend) - Z.of_nat (length ids) <=? 0) eqn:Ec.
      + apply Z.leb_le in Ec. cbn [fst snd]. split; [done|]. split; [lia|].
        split; [done|]. split; [done|]. split; [done|]. split; [done|]. split; [done|]. split; [done|]. split; [done|].
        right. intros id Hin. apply elem_of_list_In, in_rev, elem_of_list_In in Hin. rewrite H2, Hdrop in Hin.
        assert (drop BATCH pend = []) as E by (apply nil_length_inv; lia). rewrite E in Hin. cbn in Hin.
        apply elem_of_app in Hin as [Hin|Hin]; [|by apply Hkept].
        eapply (left_later w0 w0); [done|exact H6|done|by apply Hleft].
      + apply Z.leb_gt in Ec.
        apply (IH (ready ++ new) _ w' (drop BATCH pend) (seen ++ kept)); try done.
        * rewrite H2, Hdrop. by rewrite app_assoc.
        * lia.
        * lia.
        * lia.
        * lia.
        * rewrite app_assoc, <-Hdrop, <-H2. done.
        * intros id Hin. apply elem_of_app in Hin as [Hin|Hin]; [|by apply Hkept].
          eapply (left_later w0 w0); [done|exact H6|done|by apply Hleft].
    - assert (Z.of_nat (length pend) - Z.of_nat (length ids) <= 0) as Ec by lia.
      rewrite (proj2 (Z.leb_le _ _) Ec). cbn [fst snd]. split; [done|]. split; [lia|].
      split; [done|]. split; [done|]. split; [done|]. split; [done|]. split; [done|]. split; [done|]. split; [done|].
      right. intros id Hin. apply elem_of_list_In, in_rev, elem_of_list_In in Hin. rewrite H2 in Hin.
      apply elem_of_app in Hin as [Hin|Hin]; [|by apply Hkept].
      eapply (left_later w0 w0); [done|exact H6|done|]. apply Hleft.
      rewrite drop_app_ge in Hin by (unfold BATCH; lia). rewrite <-(take_drop (BATCH - length pend) seen). apply elem_of_app. by right.
  Qed.

  Lemma due_ready (j : job M) now : is_ready j now = true ↔ due j now.
  Proof.
    unfold is_ready, due. destruct (jtype (ctx j)) as [|t|e slot n cc]; [done|apply Z.ltb_lt|].
    destruct (Z.ltb_spec now slot); [split; [done|lia]|].
    destruct (max_repeat cc) as [m|]; [destruct (Z.ltb_spec m n)|].
    - split; [done|]. intros (_ & Hm & _). specialize (Hm m eq_refl). lia.
    - destruct (end_at cc) as [ea|]; [destruct (Z.ltb_spec ea now)|].
      + split; [done|]. intros (_ & _ & He). specialize (He ea eq_refl). lia.
      + split; [|done]. intros _. split; [lia|]. split; intros ? [= <-]; lia.
      + split; [|done]. intros _. split; [lia|]. split; [intros ? [= <-]; lia|done].
    - destruct (end_at cc) as [ea|]; [destruct (Z.ltb_spec ea now)|].
      + split; [done|]. intros (_ & _ & He). specialize (He ea eq_refl). lia.
      + split; [|done]. intros _. split; [lia|]. split; [done|intros ? [= <-]; lia].
      + split; [|done]. intros _. split; [lia|]. split; done.
  Qed.
  Lemma not_due_ready (j : job M) now : is_ready j now = false → ¬ due j now.
  Proof. intros H Hd. apply due_ready in Hd. congruence. Qed.

  Definition fits (w : world) : Prop := Z.of_nat (length (qlist w Queued)) <= i32_max.

  Lemma wrap32_id z : 0 <= z <= i32_max → wrap32 z = z.
  Proof. unfold wrap32, i32_max. intros H. rewrite Z.mod_small; lia. Qed.

  Lemma do_pick_spec max w :
    keyed w → NoDup (qlist w Queued) → fits w →
    let r := do_pick (M := M) prof name clock max w in
    r.2 = Done tt ∧ (reads w <= reads r.1.1)%nat ∧ keyed r.1.1 ∧
    rev (qlist w Queued) ≡ₚ rev (qlist r.1.1 Queued) ++ map jid r.1.2 ∧
    qlist r.1.1 Running = rev (map jid r.1.2) ++ qlist w Running ∧
    (∀ st, st ≠ Queued → st ≠ Running → qlist r.1.1 st = qlist w st) ∧
    (∀ id, id ∉ map jid r.1.2 → stored r.1.1 id = stored w id) ∧
    (length r.1.2 <= max - length (qlist w Running))%nat ∧
    (∀ j', j' ∈ r.1.2 → picked w (reads r.1.1) j') ∧
    (length r.1.2 = (max - length (qlist w Running))%nat ∨
     ∀ id, id ∈ qlist r.1.1 Queued → left_ w (reads r.1.1) id).
  Proof.
    intros Hk Hnd Hf. unfold do_pick. destruct (Nat.leb_spec max (length (qlist w Running))) as [Hm|Hm].
    - cbn [fst snd map rev app length]. split; [done|]. split; [lia|]. split; [done|]. split; [by rewrite app_nil_r|].
      split; [done|]. split; [done|]. split; [done|]. split; [lia|]. split; [set_solver|]. left. lia.
    - apply (scan_loop_spec _ _ [] _ w (rev (qlist w Queued)) []); try done.
      + by rewrite app_nil_r.
      + rewrite rev_length. apply wrap32_id. unfold fits in Hf. lia.
      + by rewrite rev_length.
      + rewrite rev_length. lia.
      + by rewrite !app_nil_r.
      + cbn. lia.
      + set_solver.
      + set_solver.
  Qed.

  (** A tick, exactly. *)
  Lemma step_tick (s : sys) :
    alive s = true →
    (step s EvTick).1 =
    let r := do_pick prof name clock (max_processing_jobs (cfg s)) (sw s) in
    match r.2 with
    | Done _ => Sys r.1.1 (cfg s) (tasks s ++ map spawn r.1.2) true (runs s)
    | _ => Sys r.1.1 (cfg s) [] false (runs s)
    end.
  Proof.
    intros Ha. unfold sys_step. rewrite Ha. unfold commit. cbn [ev_prog].
    rewrite run_bind, run_process_jobs. cbv zeta.
    destruct (do_pick prof name clock (max_processing_jobs (cfg s)) (sw s)) as [[w' js] o]. cbn [fst snd].
    destruct o; cbn [run fst]; rewrite ?app_nil_r; done.
  Qed.

  Lemma tick_spec (s : sys) :
    alive s = true → keyed (sw s) → NoDup (qlist (sw s) Queued) → fits (sw s) →
    let s' := (step s EvTick).1 in
    ∃ new, alive s' = true ∧ cfg s' = cfg s ∧ runs s' = runs s ∧ tasks s' = tasks s ++ map spawn new ∧
    (reads (sw s) <= reads (sw s'))%nat ∧ keyed (sw s') ∧
    qlist (sw s) Queued ≡ₚ qlist (sw s') Queued ++ map jid new ∧
    qlist (sw s') Running = rev (map jid new) ++ qlist (sw s) Running ∧
    (∀ id, id ∉ map jid new → stored (sw s') id = stored (sw s) id) ∧
    (length new <= free_slots name s)%nat ∧
    (∀ j', j' ∈ new → picked (sw s) (reads (sw s')) j') ∧
    (length new = free_slots name s ∨
     ∀ id, id ∈ qlist (sw s') Queued → left_ (sw s) (reads (sw s')) id).
  Proof.
    intros Ha Hk Hnd Hf s'. unfold s'. rewrite (step_tick s Ha).
    destruct (do_pick_spec (max_processing_jobs (cfg s)) (sw s) Hk Hnd Hf)
      as (H1 & H2 & H3 & H4 & H5 & H6 & H7 & H8 & H9 & H10).
    cbv zeta. rewrite H1. unfold free_slots. rewrite Ha.
    exists (do_pick prof name clock (max_processing_jobs (cfg s)) (sw s)).1.2.
    cbn [alive cfg runs tasks sw].
    split; [reflexivity|]. split; [reflexivity|]. split; [reflexivity|]. split; [reflexivity|].
    split; [exact H2|]. split; [exact H3|].
    split; [etransitivity; [apply Permutation_rev|]; etransitivity; [exact H4|]; by apply Permutation_app_tail, Permutation_sym, Permutation_rev|]. split; [exact H5|].
    split; [exact H7|]. split; [exact H8|]. split; [exact H9|]. exact H10.
  Qed.

  (** *** Reachable states *)
  Notation all_at := (all_at name).
  Notation at_ := (at_ name).
  Lemma all_at_keyed (s : sys) : all_at s → keyed (sw s).
  Proof. intros Ha id j. by apply (key_id name). Qed.
  Lemma all_at_nodup (s : sys) : all_at s → NoDup (qlist (sw s) Queued).
  Proof.
    intros Ha. apply cnt_nodup. intros id. destruct (Ha id) as [p Hp].
    destruct (at_pending name _ _ _ Hp) as [H _]. unfold times_in, cnt in *. lia.
  Qed.
  Lemma all_at_stored (s : sys) id :
    all_at s → id ∈ qlist (sw s) Queued → ∃ j, stored (sw s) id = Some j ∧ at_ s id (PQueued j).
  Proof.
    intros Ha Hin. destruct (Ha id) as [p Hp]. destruct (at_waiting name _ _ _ Hp Hin) as [j ->].
    exists j. split; [|done]. by destruct Hp as [[H _] _].
  Qed.

  (** The picking part of C12, C13, C10. *)
  Lemma tick_reach (s : sys) :
    all_at s → alive s = true → fits (sw s) →
    let s' := (step s EvTick).1 in
    alive s' = true ∧ cfg s' = cfg s ∧ runs s' = runs s ∧
    ∃ new, tasks s' = tasks s ++ map spawn new ∧
    (length (qlist (sw s') Running) = length new + length (qlist (sw s) Running))%nat ∧
    qlist (sw s) Queued ≡ₚ qlist (sw s') Queued ++ map jid new ∧
    (length new <= free_slots name s)%nat ∧
    (∀ j', j' ∈ new → ∃ j k, stored (sw s) (jid j') = Some j ∧ j' = prc j (ms_of (clock (S k))) ∧
       (reads (sw s) <= k)%nat ∧ (S k < reads (sw s'))%nat ∧ due j (clock k)) ∧
    (length new = free_slots name s ∨
     ∀ id, id ∈ qlist (sw s') Queued → ∃ j k, stored (sw s) id = Some j ∧ stored (sw s') id = Some j ∧
       (reads (sw s) <= k < reads (sw s'))%nat ∧ ¬ due j (clock k)).
  Proof.
    intros Hall Ha Hf s'.
    destruct (tick_spec s Ha (all_at_keyed _ Hall) (all_at_nodup _ Hall) Hf)
      as (new & H1 & H2 & H3 & H4 & H5 & H6 & H7 & H8 & H9 & H10 & H11 & H12). fold s' in H1,H2,H3,H4,H5,H6,H7,H8,H9,H10,H11,H12.
    split; [done|]. split; [done|]. split; [done|]. exists new. split; [done|].
    split; [rewrite H8, app_length, rev_length, map_length; done|]. split; [done|]. split; [done|]. split.
    - intros j' Hj'. destruct (H11 j' Hj') as (j & k & E1 & E2 & E3 & E4 & E5).
      exists j, k. rewrite <-due_ready. done.
    - destruct H12 as [H12|H12]; [by left|]. right. intros id Hin.
      assert (id ∉ map jid new) as Hn.
      { pose proof (all_at_nodup _ Hall) as Hnd. rewrite H7 in Hnd. apply NoDup_app in Hnd as (_ & Hd & _).
        by apply Hd. }
      assert (id ∈ qlist (sw s) Queued) as Hin' by (rewrite H7; set_solver).
      destruct (all_at_stored _ _ Hall Hin') as (j & Hj & _).
      destruct (H12 id Hin) as [Hl|(j0 & k & E1 & E2 & E3)]; [congruence|].
      rewrite E1 in Hj. injection Hj as ->. exists j, k. rewrite H9 by done.
      split; [done|]. split; [done|]. split; [done|]. by apply not_due_ready.
  Qed.

  (** *** Order *)
  (** If readiness does not change during the tick, a batch takes the first ready ids. *)
  Lemma scan_batch_fifo (rdy : string → bool) total ids rest ready w :
    rev (qlist w Queued) = ids ++ rest → keyed w → NoDup ids →
    (∀ id, id ∈ ids → id ∉ map jid ready) →
    (∀ id, id ∈ ids → ∃ j, stored w id = Some j ∧ ∀ k, is_ready j (clock k) = rdy id) →
    let r := scan_batch name clock total ids ready w in
    let chosen := take (total - length ready) (filter (λ id, rdy id = true) ids) in
    map jid r.2 = map jid ready ++ chosen ∧
    rev (qlist r.1 Queued) = rest ++ filter (λ id, id ∉ chosen) ids.
  Proof.
    revert rest ready w. induction ids as [|id ids IH]; intros rest ready w Hq Hk Hnd Hdis Hst.
    { cbn [scan_batch fst snd]. rewrite !filter_nil, take_nil, !app_nil_r. done. }
    cbn [scan_batch]. cbn [app] in Hq. apply rev_snoc in Hq. rewrite rev_app_distr in Hq.
    apply list.NoDup_cons in Hnd as [Hni Hnd].
    destruct (Hst id ltac:(set_solver)) as (j & Hs & Hr). rewrite Hs, Hr.
    pose proof (Hk _ _ Hs) as Hid.
    assert (existsb (λ rj, String.eqb (jid rj) (jid j)) ready = false) as ->.
    { destruct (existsb _ ready) eqn:E; [|done]. apply ready_has in E. rewrite Hid in E.
      exfalso. eapply Hdis; [|exact E]. set_solver. }
    cbn [negb]. rewrite andb_true_r. rewrite filter_cons.
    assert ((rdy id && (length ready <? total)%nat = false →
      let chosen := take (total - length ready) (filter (λ id, rdy id = true) ids) in
      let r := scan_batch name clock total ids ready (w_move name (w_tick w) Queued Queued) in
      map jid r.2 = map jid ready ++ chosen ∧
      rev (qlist r.1 Queued) = rest ++ id :: filter (λ id, id ∉ chosen) ids)) as Hrot.
    { intros _. set (w2 := w_move name (w_tick w) Queued Queued).
      assert (∀ s, qlist w2 s = if bool_decide (s = Queued) then id :: rev (ids ++ rest) else qlist w s) as Hq2.
      { intros s. unfold w2. rewrite (qlist_rotate name (w_tick w) (rev (ids ++ rest)) id)
          by by rewrite qlist_tick, Hq, rev_app_distr.
        destruct (bool_decide _); [done|apply qlist_tick]. }
      assert (∀ k, stored w2 k = stored w k) as Hs2 by (intros k; unfold w2; by rewrite stored_move, stored_tick).
      destruct (IH (rest ++ [id]) ready w2) as [H1 H2]; try done.
      - rewrite Hq2, bool_decide_true by done. cbn [rev]. by rewrite rev_involutive, app_assoc.
      - intros k jj. rewrite Hs2. apply Hk.
      - intros k Hkk. apply Hdis. set_solver.
      - intros k Hkk. rewrite Hs2. apply Hst. set_solver.
      - split; [done|]. rewrite H2, <-app_assoc. done. }
    destruct (rdy id) eqn:Erd; [rewrite decide_True by done|rewrite decide_False by congruence].
    2:{ specialize (Hrot eq_refl). cbv zeta in Hrot. destruct Hrot as [H1 H2]. cbn [andb].
        split; [done|]. rewrite H2. rewrite (filter_cons _ id), decide_True; [done|].
        intros Hin. apply Hni. eapply elem_of_list_filter. eapply elem_of_submseteq; [exact Hin|].
        apply sublist_submseteq, sublist_take. }
    destruct (Nat.ltb_spec (length ready) total) as [Hlt|Hge].
    2:{ specialize (Hrot eq_refl). cbv zeta in Hrot. destruct Hrot as [H1 H2]. cbn [andb].
        assert (total - length ready = 0)%nat as E by lia. rewrite E in *. cbn [take] in *.
        split; [done|]. rewrite H2. rewrite (filter_cons _ id), decide_True; [done|]. set_solver. }
    cbn [andb]. clear Hrot.
    set (j' := prc j (now_ms clock (w_tick w))). set (w1 := w_save (w_tick (w_tick w)) j').
    set (w2 := w_move name w1 Queued Running).
    assert (jid j' = id) as Hid' by exact Hid.
    assert (qlist w1 Queued = rev (ids ++ rest) ++ [id]) as Hq1.
    { unfold w1. rewrite qlist_save, !qlist_tick, Hq. by rewrite rev_app_distr. }
    assert (∀ s, qlist w2 s = match s with Queued => rev (ids ++ rest) | Running => id :: qlist w Running | _ => qlist w s end) as Hq2.
    { intros s. unfold w2. rewrite (qlist_pick name w1 _ id s Hq1). unfold w1.
      destruct s; by rewrite ?qlist_save, ?qlist_tick. }
    assert (∀ k, stored w2 k = if bool_decide (k = id) then Some (norm_job j') else stored w k) as Hs2.
    { intros k. unfold w2, w1. rewrite stored_move, stored_save, Hid'. done. }
    destruct (IH rest (ready ++ [j']) w2) as [H1 H2]; try done.
    { rewrite Hq2. by rewrite rev_involutive. }
    { intros k jj. rewrite Hs2. destruct (bool_decide_reflect (k = id)) as [->|]; [intros [= <-]; done|apply Hk]. }
    { intros k Hkk. rewrite map_app. cbn [map]. rewrite Hid'. specialize (Hdis k ltac:(set_solver)). set_solver. }
    { intros k Hkk. rewrite Hs2, bool_decide_false by (intros ->; done). apply Hst. set_solver. }
    assert (total - length ready = S (total - length (ready ++ [j'])))%nat as E.
    { rewrite app_length. cbn. lia. }
    rewrite E. cbn [take]. rewrite H1, H2. rewrite map_app, <-app_assoc. cbn [map app]. rewrite Hid'.
    split; [done|]. f_equal. rewrite (filter_cons _ id), decide_False by set_solver.
    apply list_filter_iff'. intros k Hkk. split; [|set_solver].
    intros Hn Hc. apply elem_of_cons in Hc as [->|Hc]; done.
  Qed.

  Lemma spawn_tids (js : list (job M)) : map tid (map spawn js) = map jid js.
  Proof. rewrite map_map. done. Qed.

  (** A waiting list that fits one batch: the oldest ready ids start, the others keep their order. *)
  Lemma tick_fifo (rdy : string → bool) (s : sys) :
    all_at s → alive s = true → (length (qlist (sw s) Queued) <= 20)%nat →
    (∀ id j, id ∈ qlist (sw s) Queued → stored (sw s) id = Some j → ∀ k, due j (clock k) ↔ rdy id = true) →
    let s' := (step s EvTick).1 in
    let chosen := take (free_slots name s) (filter (λ id, rdy id = true) (rev (qlist (sw s) Queued))) in
    map tid (tasks s') = map tid (tasks s) ++ chosen ∧
    rev (qlist (sw s') Queued) = filter (λ id, id ∉ chosen) (rev (qlist (sw s) Queued)).
  Proof.
    intros Hall Ha Hlen Hr. rewrite (step_tick s Ha). cbv zeta.
    assert (free_slots name s = max_processing_jobs (cfg s) - length (qlist (sw s) Running))%nat as ->.
    { unfold free_slots. by rewrite Ha. }
    destruct s as [w c ts a rs]. cbn [sw cfg tasks runs alive] in *.
    set (chosen := take (max_processing_jobs c - length (qlist w Running)) _).
    assert (∀ l : list string, filter (λ id, id ∉ @nil string) l = l) as Hnil.
    { intros l. rewrite (list_filter_iff' _ (λ _, True)) by set_solver.
      induction l as [|x l IH]; [done|]. rewrite filter_cons, decide_True by done. by rewrite IH. }
    unfold do_pick. destruct (Nat.leb_spec (max_processing_jobs c) (length (qlist w Running))) as [Hm|Hm].
    { assert (max_processing_jobs c - length (qlist w Running) = 0)%nat as E by lia.
      unfold chosen. rewrite E. cbn [fst snd map take tasks sw]. rewrite !app_nil_r. split; [done|]. by rewrite Hnil. }
    cbn [scan_loop].
    assert (take BATCH (rev (qlist w Queued)) = rev (qlist w Queued)) as Et.
    { apply take_ge. rewrite rev_length. unfold BATCH. lia. }
    rewrite Et, rev_length, wrap32_id by (unfold i32_max; lia).
    rewrite Z.sub_diag. change (i32_norm prof 0) with (Some 0). cbv iota beta.
    destruct (scan_batch_fifo rdy (max_processing_jobs c - length (qlist w Running))%nat
      (rev (qlist w Queued)) [] [] w) as [H1 H2].
    - by rewrite app_nil_r.
    - by apply (all_at_keyed (Sys w c ts a rs)).
    - rewrite <-Permutation_rev. by apply (all_at_nodup (Sys w c ts a rs)).
    - intros id _. apply not_elem_of_nil.
    - intros id Hin. rewrite <-Permutation_rev in Hin.
      destruct (all_at_stored (Sys w c ts a rs) id Hall Hin) as (j & Hj & _). exists j. split; [exact Hj|].
      intros k. specialize (Hr id j Hin Hj k). rewrite <-due_ready in Hr.
      destruct (is_ready j (clock k)), (rdy id); intuition.
    - cbv zeta in H1, H2. cbn [length map app] in H1, H2. rewrite Nat.sub_0_r in H1, H2. fold chosen in H1, H2.
      destruct (scan_batch name clock _ _ [] w) as [w' ready'] eqn:Esb. cbn [fst snd] in H1, H2.
      destruct (_ <=? _)%nat; [|change (0 <=? 0) with true]; cbn [fst snd tasks sw];
        rewrite map_app, spawn_tids, H1, H2; done.
  Qed.

  (** *** Progress *)
  Notation go := (sys_run prof sched name h).
  Notation ok_hist := (ok_hist prof sched name clock).
  Notation free_ticks := (free_ticks prof sched name clock).
  Notation arrivals := (arrivals prof sched name clock).

  (** Events that touch a waiting id from outside. *)
  Definition disturbs (id : string) (e : event M) : Prop := submits id e ∨ e = EvCancel id.

  Lemma waiting_step_tick (s : sys) e id j :
    all_at s → ok_event s e → at_ s id (PQueued j) → ¬ disturbs id e →
    at_ (step s e).1 id (PQueued j) ∨ is_tick e ∧ id ∈ qlist (sw (step s e).1) Running.
  Proof.
    intros Ha Hok Hp Hd. destruct (life_step prof sched name clock s e Hok Ha) as [_ Hl].
    destruct (Hl id _ Hp) as (p' & new & Hp' & Hps & _).
    assert (∀ k p n k' p', psteps prof sched clock id e k p n k' p' →
      (p = PQueued j ∨ (is_tick e ∧ ((∃ t, p = PTask t) ∨ ∃ j, p = POrphan j))) →
      (p' = PQueued j ∨ (is_tick e ∧ ((∃ t, p' = PTask t) ∨ ∃ j, p' = POrphan j)))) as Hind.
    { clear -Hd. intros k p n k' p' Hps. induction Hps as [k p|k p n1 k1 p1 n2 k2 p2 H1 H2 IH]; [done|].
      intros Hp. apply IH. clear IH H2.
      assert (∀ i u, e = EvTask i u → is_tick e → False) as Ht.
      { intros i u -> [H|H]; done. }
      destruct H1; try (exfalso; apply Hd; subst; (left; done) || (right; done));
        try (destruct Hp as [Hp|[Ht' Hp]]; [|by destruct Hp as [[? ?]|[? ?]]]);
        try discriminate; eauto.
      all: try (destruct Hp as [Hp|[Ht' Hp]]; [discriminate|]; try (exfalso; by eapply Ht); eauto). }
    destruct (Hind _ _ _ _ _ Hps ltac:(by left)) as [->|[Ht [[t ->]|[jo ->]]]]; [by left|..]; right; (split; [done|]);
      apply cnt_pos; destruct Hp' as [(_ & _ & Hc & _) _]; lia.
  Qed.
  Lemma waiting_step (s : sys) e id j :
    all_at s → ok_event s e → at_ s id (PQueued j) → ¬ disturbs id e →
    at_ (step s e).1 id (PQueued j) ∨ id ∈ qlist (sw (step s e).1) Running.
  Proof. intros Ha Hok Hp Hd. destruct (waiting_step_tick s e id j Ha Hok Hp Hd) as [?|[_ ?]]; auto. Qed.

  (** The clock is read forwards. *)
  Lemma rd_eff X (e : eff X) w : (reads w <= reads (h X e w).1)%nat.
  Proof. destruct e; cbn; try lia; repeat case_match; cbn; lia. Qed.
  Lemma rd_run {A} (p : prog A) w : (reads w <= reads (run h p w).1)%nat.
  Proof.
    revert w. induction p as [a| | |X e k IH]; intros w; cbn; try lia.
    pose proof (rd_eff X e w) as Hm. destruct (h X e w) as [w' x]. cbn in Hm. specialize (IH x w'). lia.
  Qed.
  Lemma rd_run_n {A} n (p : prog A) w : (reads w <= reads (run_n h n p w))%nat.
  Proof.
    revert p w. induction n as [|n IH]; intros p w; [destruct p; cbn; lia|]. destruct p as [a| | |X e k]; cbn; try lia.
    pose proof (rd_eff X e w) as Hm. destruct (h X e w) as [w' x]. cbn in Hm. specialize (IH (k x) w'). lia.
  Qed.
  Lemma rd_commit (s : sys) e : (reads (sw s) <= reads (sw (commit prof sched name h s e).1))%nat.
  Proof.
    unfold commit. pose proof (rd_run (ev_prog prof sched name (cfg s) (tasks s) e) (sw s)) as H.
    destruct (run _ _ _) as [w [[[[c ts] js] r]| |]]; done.
  Qed.
  Lemma rd_step (s : sys) e : (reads (sw s) <= reads (sw (step s e).1))%nat.
  Proof.
    unfold sys_step. destruct (alive s).
    - destruct e as [| | | | | | | | |e n|]; try apply rd_commit; try done. cbn [fst sw].
      destruct e; try apply rd_run_n; done.
    - destruct e as [| | | | | | | | |e n|]; try done; [|apply rd_commit]. destruct e; try done. apply rd_run_n.
  Qed.

  Lemma progress es (s : sys) id j :
    all_at s → ok_hist s es → at_ s id (PQueued j) → (∀ k, (reads (sw s) <= k)%nat → due j (clock k)) →
    Forall (λ e, ¬ disturbs id e) es →
    Z.of_nat (length (qlist (sw s) Queued) + arrivals s es) <= i32_max →
    (∀ es1 es2, es = es1 ++ es2 → id ∉ qlist (sw (go s es1)) Running) →
    (length (qlist (sw (go s es)) Queued) + free_ticks s es <= length (qlist (sw s) Queued) + arrivals s es)%nat ∧
    id ∈ qlist (sw (go s es)) Queued.
  Proof.
    revert s. induction es as [|e es IH]; intros s Ha Hok Hp Hdue HE Hmax Hno.
    { cbn. split; [lia|]. apply cnt_pos. destruct Hp as [(_ & Hc & _) _]. lia. }
    cbn in Hok. destruct Hok as [He Hok]. apply Forall_cons_1 in HE as [HEe HE].
    cbn [Spec.free_ticks Spec.arrivals] in *. rewrite go_cons.
    destruct (life_step prof sched name clock s e He Ha) as [Ha' _].
    assert (at_ (step s e).1 id (PQueued j)) as Hp'.
    { destruct (waiting_step s e id j Ha He Hp HEe) as [?|Hr]; [done|]. exfalso. by apply (Hno [e] es). }
    pose proof (rd_step s e) as Hrd.
    destruct (IH (step s e).1) as [H1 H2]; try done.
    { intros k Hk. apply Hdue. lia. }
    { lia. }
    { intros es1 es2 ->. specialize (Hno (e :: es1) es2 eq_refl). by rewrite go_cons in Hno. }
    split; [|done].
    enough (match e with EvTick => Nat.min 1 (free_slots name s) | _ => 0 end + length (qlist (sw (step s e).1) Queued)
      <= length (qlist (sw s) Queued) + (length (qlist (sw (step s e).1) Queued) - length (qlist (sw s) Queued)))%nat by lia.
    destruct (match e with EvTick => true | _ => false end) eqn:Et; [|destruct e; done || lia].
    destruct e; try done. clear Et.
    destruct (decide (free_slots name s = 0)%nat) as [E|E]; [rewrite E; cbn; lia|].
    assert (alive s = true) as Hal. { unfold free_slots in E. by destruct (alive s). }
    destruct (tick_reach s Ha Hal) as (_ & _ & _ & new & _ & _ & Hperm & _ & _ & Hnew); [unfold fits; lia|].
    assert (length new <> 0)%nat as Hn.
    { destruct Hnew as [Hnew|Hnew]; [lia|].
      exfalso. destruct (Hnew id) as (j0 & k & Hs & _ & Hk & Hnd).
      - apply cnt_pos. destruct Hp' as [(_ & Hc & _) _]. lia.
      - destruct Hp as [(Hs' & _) _]. rewrite Hs' in Hs. injection Hs as <-. apply Hnd, Hdue. lia. }
    apply Permutation_length in Hperm. rewrite app_length, map_length in Hperm.
    assert (Nat.min 1 (free_slots name s) = 1)%nat as -> by lia.
    set (a := length (qlist (sw s) Queued)) in *. set (b := length (qlist (sw (step s EvTick).1) Queued)) in *. lia.
  Qed.

  Lemma no_starvation es (s : sys) id j :
    all_at s → ok_hist s es → id ∈ qlist (sw s) Queued → stored (sw s) id = Some j →
    (∀ k, (reads (sw s) <= k)%nat → due j (clock k)) → Forall (λ e, ¬ submits id e ∧ e ≠ EvCancel id) es →
    Z.of_nat (length (qlist (sw s) Queued) + arrivals s es) <= i32_max →
    (length (qlist (sw s) Queued) + arrivals s es <= free_ticks s es)%nat →
    ∃ es1 es2, es = es1 ++ es2 ∧ id ∈ qlist (sw (go s es1)) Running.
  Proof.
    intros Ha Hok Hin Hs Hdue HE Hmax Hft.
    destruct (all_at_stored s id Ha Hin) as (j0 & Hs0 & Hp). rewrite Hs0 in Hs. injection Hs as ->.
    assert (∀ n, (∀ m, (m < n)%nat → id ∉ qlist (sw (go s (take m es))) Running) ∨
      ∃ m, id ∈ qlist (sw (go s (take m es))) Running) as Hdec.
    { induction n as [|n [IH|IH]]; [left; lia| |by right].
      destruct (decide (id ∈ qlist (sw (go s (take n es))) Running)) as [Hi|Hi]; [right; eauto|].
      left. intros m Hm. destruct (decide (m = n)) as [->|]; [done|]. apply IH. lia. }
    destruct (Hdec (S (length es))) as [Hno|[m Hm]].
    2:{ exists (take m es), (drop m es). by rewrite take_drop. }
    exfalso. destruct (progress es s id j) as [H1 H2]; try done.
    - eapply Forall_impl; [|exact HE]. intros e [He1 He2] [Hd|Hd]; done.
    - intros es1 es2 ->. specialize (Hno (length es1)). rewrite take_app in Hno. apply Hno.
      rewrite app_length. lia.
    - assert (0 < length (qlist (sw (go s es)) Queued))%nat; [|lia].
      destruct (qlist (sw (go s es)) Queued); [by apply not_elem_of_nil in H2|cbn; lia].
  Qed.

  (** *** Termination, for any content of the backend *)
  Lemma scan_batch_any total ids rest ready w :
    rev (qlist w Queued) = ids ++ rest →
    ∃ kept, rev (qlist (scan_batch (M := M) name clock total ids ready w).1 Queued) = rest ++ kept.
  Proof.
    revert rest ready w. induction ids as [|id ids IH]; intros rest ready w Hq.
    { exists []. cbn [scan_batch fst]. by rewrite app_nil_r. }
    cbn [scan_batch]. cbn [app] in Hq. apply rev_snoc in Hq.
    assert (∀ w1 ready, (∀ s, qlist w1 s = qlist w s) →
      ∃ kept, rev (qlist (scan_batch (M := M) name clock total ids ready (w_move name w1 Queued Queued)).1 Queued) = rest ++ kept) as Hrot.
    { intros w1 rd H1. destruct (IH (rest ++ [id]) rd (w_move name w1 Queued Queued)) as [kept Hkept].
      - rewrite (qlist_rotate name w1 _ id) by (rewrite H1; exact Hq). rewrite bool_decide_true by done.
        cbn [rev]. by rewrite rev_involutive, app_assoc.
      - exists (id :: kept). rewrite Hkept, <-app_assoc. done. }
    destruct (stored w id) as [j|]; [|by apply Hrot].
    destruct (_ && _ && _); [|by apply Hrot].
    apply IH. rewrite (qlist_pick name _ (rev (ids ++ rest)) id).
    - by rewrite rev_involutive.
    - by rewrite qlist_save, !qlist_tick.
  Qed.

  Lemma scan_loop_done fuel total ready cursor w pend seen :
    rev (qlist w Queued) = pend ++ seen → cursor = Z.of_nat (length pend) →
    Z.of_nat (length pend) <= i32_max → (length pend < fuel)%nat →
    (scan_loop (M := M) prof name clock fuel total ready cursor w).2 = Done tt.
  Proof.
    revert ready cursor w pend seen. induction fuel as [|fuel IH]; intros ready cursor w pend seen; [lia|].
    intros Hq -> Hmax Hfuel. cbn [scan_loop]. rewrite Hq. set (ids := take BATCH (pend ++ seen)).
    assert (length ids = Nat.min 20 (length pend + length seen)) as Hids.
    { unfold ids. by rewrite take_length, app_length. }
    assert (i32_norm prof (Z.of_nat (length pend) - Z.of_nat (length ids)) =
      Some (Z.of_nat (length pend) - Z.of_nat (length ids))) as ->.
    { unfold i32_norm, in_i32. rewrite Hids. unfold i32_min, i32_max in *.
      rewrite (proj2 (Z.leb_le _ _)) by lia. rewrite (proj2 (Z.leb_le _ _)) by lia. done. }
    destruct (scan_batch_any total ids (drop BATCH (pend ++ seen)) ready w) as [kept Hkept].
    { rewrite Hq. unfold ids. by rewrite take_drop. }
    destruct (scan_batch name clock total ids ready w) as [w' ready']. cbn [fst] in Hkept.
    destruct (total <=? length ready')%nat; [done|].
    destruct (Z.leb_spec (Z.of_nat (length pend) - Z.of_nat (length ids)) 0); [done|].
    apply (IH ready' _ w' (drop BATCH pend) (seen ++ kept)).
    - rewrite Hkept, drop_app_le by (unfold BATCH; lia). by rewrite app_assoc.
    - rewrite drop_length. unfold BATCH. lia.
    - rewrite drop_length. lia.
    - rewrite drop_length. unfold BATCH. lia.
  Qed.

  Lemma pick_done max w :
    fits w → ∃ js w', run h (pick_jobs_to_process (M := M) prof name max) w = (w', Done (Ok js)).
  Proof.
    intros Hf. rewrite run_pick. unfold with_ready, do_pick.
    destruct (max <=? _)%nat; [by eexists _, _|].
    rewrite (scan_loop_done _ _ _ _ w (rev (qlist w Queued)) []).
    - by eexists _, _.
    - by rewrite app_nil_r.
    - rewrite rev_length. apply wrap32_id. unfold fits in Hf. lia.
    - by rewrite rev_length.
    - rewrite rev_length. lia.
  Qed.
End pick.
