(** Every step of the queue is a step of the scheduler of SpecSched.v. *)
From Verif Require Import Spec JsonFacts BackendFacts WorldFacts MicroFacts LifeFacts HistFacts SubmitFacts LifeProps PickFacts ApiFacts CronFacts StarveFacts RedisFacts SpecSched.
Open Scope Z_scope.

Section facts.
  Context {M : Type} `{SM : Serde M} {SO : SerdeOk M}.
  Context (prof : profile).
  Context (sched : string → option (time → option time)).
  Context (name : string).
  Context (clock : nat → time).
  Notation h := (mem_h clock).
  Notation qlist := (qlist name).
  Notation stored := (@stored M SM).
  Notation sys := (sys world M).
  Notation step := (sys_step prof sched name h).
  Notation all_at := (all_at name).
  Notation show := (show name).

  (** *** Ticks *)
  Lemma reads_batch total ids (ready : list (job M)) w : (reads w <= reads (scan_batch name clock total ids ready w).1)%nat.
  Proof.
    revert ready w. induction ids as [|id ids IH]; intros ready w; cbn [scan_batch fst]; [lia|].
    destruct (stored w id) as [j|]; [|exact (IH ready (w_move name w Queued Queued))].
    destruct (_ && _ && _); (etransitivity; [|apply IH]); cbn; lia.
  Qed.

  Lemma reads_loop fuel total (ready : list (job M)) cursor w :
    (reads w <= reads (scan_loop prof name clock fuel total ready cursor w).1.1)%nat.
  Proof.
    revert ready cursor w. induction fuel as [|fuel IH]; intros ready cursor w; cbn [scan_loop]; [cbn; lia|].
    destruct (i32_norm prof _) as [c|]; [|cbn; lia].
    pose proof (reads_batch total (take BATCH (rev (qlist w Queued))) ready w) as Hb.
    destruct (scan_batch name clock total _ ready w) as [w' ready']. cbn [fst] in Hb.
    destruct (_ <=? _)%nat; [done|]. destruct (_ <=? _); [done|]. etransitivity; [exact Hb|apply IH].
  Qed.

  Section look.
    Context (N : time → Prop) (b : board M).
    Lemma look_batch total ids rest ready w :
      rev (qlist w Queued) = ids ++ rest → NoDup ids →
      (∀ id, id ∈ ids → id ∉ map jid ready ∧ ∃ j, records b id = Some j ∧ stored w id = Some j ∧ normal j ∧ jid j = id) →
      let r := scan_batch name clock total ids ready w in
      (∀ k, (reads w <= k < reads r.1)%nat → N (clock k)) →
      ∃ js left_, r.2 = ready ++ js ∧ look N b (total - length ready) ids js left_ ∧
        rev (qlist r.1 Queued) = rest ++ left_ ∧
        qlist r.1 Running = rev (map jid js) ++ qlist w Running ∧
        (∀ j, j ∈ js → stored r.1 (jid j) = Some j) ∧ (∀ k, k ∉ map jid js → stored r.1 k = stored w k) ∧
        (∀ id, id ∈ left_ → id ∈ ids) ∧ NoDup left_ ∧ (∀ j, j ∈ js → jid j ∈ ids ∧ jid j ∉ left_).
    Proof.
      revert rest ready w. induction ids as [|id ids IH]; intros rest ready w Hq Hnd Hst r HN.
      { exists [], []. unfold r. cbn [scan_batch fst snd]. rewrite !app_nil_r. cbn [app] in Hq.
        split; [done|]. split; [constructor|]. split; [done|]. split; [done|].
        repeat split; try (intros; set_solver). }
      unfold r in *. clear r. cbn [scan_batch] in *. cbn [app] in Hq. apply rev_snoc in Hq. rewrite rev_app_distr in Hq.
      apply list.NoDup_cons in Hnd as [Hni Hnd].
      destruct (Hst id ltac:(set_solver)) as (Hnr & j & Hb & Hs & Hn & Hid). rewrite Hs in *.
      assert (existsb (λ rj, String.eqb (jid rj) (jid j)) ready = false) as Eex.
      { destruct (existsb _ ready) eqn:E; [|done]. apply ready_has in E. by rewrite Hid in E. }
      rewrite Eex in *. cbn [negb] in *. rewrite andb_true_r in *.
      destruct (is_ready j (clock (reads w)) && (length ready <? total)%nat) eqn:Eb.
      - apply andb_true_iff in Eb as [Er El]. apply Nat.ltb_lt in El.
        set (j' := prc j (now_ms clock (w_tick w))) in *. set (w1 := w_save (w_tick (w_tick w)) j') in *.
        set (w2 := w_move name w1 Queued Running) in *.
        assert (jid j' = id) as Hid' by exact Hid.
        assert (qlist w1 Queued = rev (ids ++ rest) ++ [id]) as Hq1.
        { unfold w1. rewrite qlist_save, !qlist_tick, Hq. by rewrite rev_app_distr. }
        assert (∀ s, qlist w2 s = match s with Queued => rev (ids ++ rest) | Running => id :: qlist w Running | _ => qlist w s end) as Hq2.
        { intros s. unfold w2. rewrite (qlist_pick name w1 _ id s Hq1). unfold w1.
          destruct s; by rewrite ?qlist_save, ?qlist_tick. }
        assert (∀ k, stored w2 k = if bool_decide (k = id) then Some j' else stored w k) as Hs2.
        { intros k. unfold w2, w1. rewrite stored_move, stored_save, Hid'. pose proof (normal_prc j (now_ms clock (w_tick w)) Hn) as Hn'.
          unfold normal in Hn'. fold j' in Hn'. by rewrite Hn'. }
        pose proof (reads_batch total ids (ready ++ [j']) w2) as Hr2. change (reads w2) with (S (S (reads w))) in Hr2.
        destruct (IH rest (ready ++ [j']) w2) as (js & lf & H1 & H2 & H3 & H4 & H5 & H6 & H7 & H8 & H9).
        + rewrite Hq2. by rewrite rev_involutive.
        + done.
        + intros k Hk. destruct (Hst k ltac:(set_solver)) as (Ha & jk & Hb2 & Hc & Hd & He). split.
          { rewrite map_app. cbn [map]. rewrite Hid'. intros [?|E]%elem_of_app; [done|]. apply elem_of_list_singleton in E as ->. done. }
          exists jk. split; [done|]. rewrite Hs2, bool_decide_false by (intros ->; done). done.
        + intros k Hk. apply HN. change (reads w2) with (S (S (reads w))) in Hk. lia.
        + exists (j' :: js), lf. rewrite H1, <-app_assoc. split; [done|]. split.
          { assert (total - length ready = S (total - length (ready ++ [j'])))%nat as ->.
            { rewrite app_length. cbn [length]. lia. }
            apply (look_take N b _ id ids j (clock (reads w)) (clock (S (reads w))) js lf); try done.
            - apply HN. lia.
            - by apply due_ready.
            - apply HN. lia. }
          split; [done|]. split.
          { rewrite H4, Hq2. cbn [map rev]. rewrite <-app_assoc, Hid'. done. }
          split.
          { intros jj [->|Hjj]%elem_of_cons; [|by apply H5]. rewrite H6, Hs2, Hid', bool_decide_true; [done..|].
            rewrite Hid'. intros (x & Hx & Hin)%elem_of_list_fmap. destruct (H9 x Hin) as [Hy _]. by rewrite <-Hx in Hy. }
          split.
          { intros k Hk. cbn [map] in Hk. apply not_elem_of_cons in Hk as [Hk1 Hk2]. rewrite H6, Hs2, bool_decide_false; try done.
            by rewrite <-Hid'. }
          split; [intros k Hk; right; by apply H7|]. split; [done|].
          intros jj [->|Hjj]%elem_of_cons.
          { rewrite Hid'. split; [by left|]. intros Hin. by apply Hni, H7. }
          destruct (H9 jj Hjj) as [Ha Hb2]. split; [by right|done].
      - set (w2 := w_move name (w_tick w) Queued Queued) in *.
        assert (∀ s, qlist w2 s = if bool_decide (s = Queued) then id :: rev (ids ++ rest) else qlist w s) as Hq2.
        { intros s. unfold w2. rewrite (qlist_rotate name (w_tick w) (rev (ids ++ rest)) id)
            by by rewrite qlist_tick, Hq, rev_app_distr.
          destruct (bool_decide _); [done|apply qlist_tick]. }
        assert (∀ k, stored w2 k = stored w k) as Hs2 by (intros k; unfold w2; by rewrite stored_move, stored_tick).
        pose proof (reads_batch total ids ready w2) as Hr2. change (reads w2) with (S (reads w)) in Hr2.
        destruct (IH (rest ++ [id]) ready w2) as (js & lf & H1 & H2 & H3 & H4 & H5 & H6 & H7 & H8 & H9).
        + rewrite Hq2, bool_decide_true by done. cbn [rev]. by rewrite rev_involutive, app_assoc.
        + done.
        + intros k Hk. rewrite Hs2. apply Hst. by right.
        + intros k Hk. apply HN. change (reads w2) with (S (reads w)) in Hk. lia.
        + exists js, (id :: lf). split; [done|]. split.
          { apply (look_leave N b _ id ids j (clock (reads w))); try done.
            - apply HN. lia.
            - apply andb_false_iff in Eb as [Er|El%Nat.ltb_ge]; [right; by apply not_due_ready|left; lia]. }
          split; [rewrite H3, <-app_assoc; done|]. split; [by rewrite H4, Hq2|]. split; [done|].
          split; [intros k Hk; by rewrite H6|]. split.
          { intros k [->|Hk]%elem_of_cons; [by left|right; by apply H7]. }
          split.
          { apply list.NoDup_cons. split; [|done]. intros Hin. by apply Hni, H7. }
          intros jj Hjj. destruct (H9 jj Hjj) as [Ha Hb2]. split; [by right|].
          intros [E|?]%elem_of_cons; [|done]. by rewrite E in Ha.
    Qed.

    Lemma look_length n ids js lf : look N b n ids js lf → length ids = (length js + length lf)%nat.
    Proof. induction 1; cbn [length]; lia. Qed.

    Lemma rounds_loop fuel total m ready cursor w :
      NoDup (qlist w Queued) → cursor = Z.of_nat m → Z.of_nat m <= i32_max →
      (m <= length (qlist w Queued))%nat → (m = 0%nat → qlist w Queued = []) → (m < fuel)%nat → (length ready < total)%nat →
      (∀ id, id ∈ qlist w Queued → id ∉ map jid ready ∧ ∃ j, records b id = Some j ∧ stored w id = Some j ∧ normal j ∧ jid j = id) →
      let r := scan_loop prof name clock fuel total ready cursor w in
      (∀ k, (reads w <= k < reads r.1.1)%nat → N (clock k)) →
      ∃ js, r.2 = Done tt ∧ r.1.2 = ready ++ js ∧
        rounds N b m (total - length ready) (rev (qlist w Queued)) js (rev (qlist r.1.1 Queued)) ∧
        qlist r.1.1 Running = rev (map jid js) ++ qlist w Running ∧
        (∀ j, j ∈ js → stored r.1.1 (jid j) = Some j) ∧ (∀ k, k ∉ map jid js → stored r.1.1 k = stored w k) ∧
        (∀ j, j ∈ js → jid j ∈ qlist w Queued).
    Proof.
      revert m ready cursor w. induction fuel as [|fuel IH]; intros m ready cursor w; [lia|].
      intros Hnd -> Hm Hle Hm0 Hf Hl Hst r. unfold r. clear r. cbn [scan_loop].
      set (q := rev (qlist w Queued)). set (ids := take BATCH q). set (rest := drop BATCH q).
      assert (length q = length (qlist w Queued)) as Hlq by apply rev_length.
      assert (length ids = Nat.min 20 (length q)) as Hids by (unfold ids; by rewrite take_length).
      unfold i32_norm, in_i32. rewrite (proj2 (Z.leb_le _ _)), (proj2 (Z.leb_le _ _)) by (unfold i32_min, i32_max in *; lia).
      cbn [andb].
      assert (q = ids ++ rest) as Hq by (unfold ids, rest; by rewrite take_drop).
      assert (NoDup q) as Hndq by (unfold q; by rewrite <-Permutation_rev).
      assert (∀ x, x ∈ q ↔ x ∈ qlist w Queued) as Hinq by (intros x; unfold q; by rewrite <-Permutation_rev).
      pose proof Hndq as Hndq'. rewrite Hq in Hndq'. apply NoDup_app in Hndq' as (Hnd1 & Hdis & Hnd2).
      pose proof (look_batch total ids rest ready w Hq Hnd1) as Hlook.
      assert (∀ id, id ∈ ids → id ∉ map jid ready ∧ ∃ j, records b id = Some j ∧ stored w id = Some j ∧ normal j ∧ jid j = id) as Hst1.
      { intros id Hin. apply Hst, Hinq. rewrite Hq. set_solver. }
      specialize (Hlook Hst1). cbv zeta in Hlook.
      destruct (scan_batch name clock total ids ready w) as [w' ready'] eqn:Esb. cbn [fst snd] in Hlook.
      intros HN.
      assert ((reads w' <= reads (if (total <=? length ready')%nat then (w', ready', Done tt)
            else if (Z.of_nat m - Z.of_nat (length ids) <=? 0)%Z then (w', ready', Done tt)
            else scan_loop prof name clock fuel total ready' (Z.of_nat m - Z.of_nat (length ids))%Z w').1.1)%nat) as Hmono.
      { destruct (_ <=? _)%nat; [cbn; lia|]. destruct (_ <=? _); [cbn; lia|]. apply reads_loop. }
      pose proof (reads_batch total ids ready w) as Hmono0. rewrite Esb in Hmono0. cbn [fst] in Hmono0.
      destruct Hlook as (js & lf & H1 & H2 & H3 & H4 & H5 & H6 & H7 & H8 & H9).
      { intros k Hk. apply HN. lia. }
      pose proof (look_length _ _ _ _ H2) as Ejs.
      assert (length (qlist w' Queued) = length q - length js)%nat as Hlq'.
      { rewrite <-rev_length, H3, app_length, Hq, app_length. lia. }
      assert (∀ j, j ∈ js → jid j ∈ qlist w Queued) as Hjin.
      { intros j Hj. apply Hinq. rewrite Hq. destruct (H9 j Hj). set_solver. }
      assert ((m - 20 = 0)%nat ∨ (total - length ready - length js = 0)%nat →
        rounds N b m (total - length ready) q js (rev (qlist w' Queued))) as Hend.
      { intros He. destruct (decide (m = 0%nat)) as [E0|E0].
        { assert (q = []) as Eq by (unfold q; by rewrite Hm0).
          assert (rest = []) as Er by (unfold rest; by rewrite Eq).
          rewrite Eq in Hids. cbn in Hids. destruct js; [|cbn in *; lia]. destruct lf; [|cbn in *; lia].
          rewrite H3, Er, Eq. apply rounds_end. by left. }
        rewrite <-(app_nil_r js). apply (rounds_more N b m _ _ js lf); [lia|lia|exact H2|].
        rewrite H3. by apply rounds_end. }
      destruct (Nat.leb_spec total (length ready')) as [Hfull|Hfree].
      { exists js. cbn [fst snd]. split; [done|]. split; [done|]. split; [|done].
        rewrite H1, app_length in Hfull. apply Hend. right. lia. }
      destruct (Z.leb_spec (Z.of_nat m - Z.of_nat (length ids)) 0) as [Hz|Hpos].
      { exists js. cbn [fst snd]. split; [done|]. split; [done|]. split; [|done].
        apply Hend. left. lia. }
      assert (length ids = 20%nat) as H20 by lia.
      destruct (IH (m - 20)%nat ready' (Z.of_nat m - Z.of_nat (length ids)) w') as (js' & G1 & G2 & G3 & G4 & G5 & G6 & G7).
      + rewrite (Permutation_rev (qlist w' Queued)), H3. apply NoDup_app. split; [done|]. split; [|done].
        intros x Hx Hx'. apply (Hdis x); [by apply H7|done].
      + lia.
      + lia.
      + lia.
      + lia.
      + lia.
      + done.
      + intros id Hin. rewrite (Permutation_rev (qlist w' Queued)), H3 in Hin.
        assert (id ∉ map jid js) as Hnjs.
        { intros (x & Hx & Hxin)%elem_of_list_fmap. destruct (H9 x Hxin) as [Ha Hb]. rewrite <-Hx in Ha, Hb.
          apply elem_of_app in Hin as [Hin|Hin]; [|done]. by apply (Hdis id). }
        assert (id ∈ qlist w Queued) as Hin0.
        { apply Hinq. rewrite Hq. apply elem_of_app in Hin as [Hin|Hin]; apply elem_of_app; [by right|left; by apply H7]. }
        destruct (Hst id Hin0) as (Ha & j & Hb1 & Hb2 & Hb3). split.
        { rewrite H1, map_app. intros [?|?]%elem_of_app; done. }
        exists j. split; [done|]. by rewrite H6.
      + intros k Hk. apply HN. lia.
      + assert (∀ j, j ∈ js' → jid j ∉ map jid js) as Hdj.
        { intros j Hj (x & Hx & Hxin)%elem_of_list_fmap. destruct (H9 x Hxin) as [Ha Hb]. rewrite <-Hx in Ha, Hb.
          specialize (G7 j Hj). rewrite (Permutation_rev (qlist w' Queued)), H3 in G7.
          apply elem_of_app in G7 as [Hin|Hin]; [|done]. by apply (Hdis (jid j)). }
        exists (js ++ js'). split; [done|]. split; [rewrite G2, H1; by rewrite app_assoc|]. split.
        { apply (rounds_more N b m _ _ js lf); [lia|lia|exact H2|]. assert (length ready' = length ready + length js)%nat as El by (by rewrite H1, app_length). rewrite El, Nat.sub_add_distr in G3.
          rewrite H3 in G3. exact G3. }
        split; [rewrite G4, H4, map_app, rev_app_distr; by rewrite app_assoc|]. split.
        { intros j [Hj|Hj]%elem_of_app; [|by apply G5].
          destruct (decide (jid j ∈ map jid js')) as [Hi|Hi].
          - exfalso. apply elem_of_list_fmap in Hi as (x & Hx & Hxin). apply (Hdj x Hxin). rewrite <-Hx.
            by apply elem_of_list_fmap_1.
          - rewrite G6 by done. by apply H5. }
        split.
        { intros k Hk. rewrite map_app, not_elem_of_app in Hk. destruct Hk. rewrite G6, H6; done. }
        intros j [Hj|Hj]%elem_of_app; [by apply Hjin|].
        specialize (G7 j Hj). rewrite (Permutation_rev (qlist w' Queued)), H3 in G7. apply Hinq. rewrite Hq.
        apply elem_of_app in G7 as [Hin|Hin]; apply elem_of_app; [by right|left; by apply H7].
    Qed.
  End look.

  (** *** Lists and records *)
  Lemma without_rev id l : rev (filter (λ y, y ≠ id) l) = without id (rev l).
  Proof.
    unfold without. induction l as [|x l IH]; [done|]. cbn [rev]. rewrite filter_cons, list.filter_app, filter_cons.
    destruct (decide (x ≠ id)); cbn [rev]; rewrite IH; [done|]. by rewrite app_nil_r.
  Qed.
  Lemma without_out id l : id ∉ l → without id l = l.
  Proof.
    unfold without. induction l as [|x l IH]; [done|]. intros [Hx Hl]%not_elem_of_cons.
    rewrite filter_cons, decide_True by done. by rewrite IH.
  Qed.
  Lemma with_norm (b b' : board M) id j :
    (∀ k, records b' k = if bool_decide (k = id) then Some (norm_job j) else records b k) → with_record b b' id j.
  Proof.
    intros H. split; [exists (norm_job j); rewrite H, bool_decide_true by done; split; [done|apply read_back_norm]|].
    intros k Hk. by rewrite H, bool_decide_false.
  Qed.
  Lemma is_done_in (j : job M) : is_done j = bool_decide (jstatus (ctx j) ∈ [Finished; Failed; Canceled]).
  Proof. unfold is_done. by destruct (jstatus (ctx j)). Qed.

  (** *** The end of an execution *)
  Lemma with_retry_same (j : job M) r : jretry (ctx j) = Some r → with_retry j r = j.
  Proof. destruct j as [[] ?]. cbn. by intros ->. Qed.
  Definition ending_of (v : verdict (M := M)) : ending M :=
    match v with VRequeue j => Again j | VFailed j => Over Failed j | VFinished j => Over Finished j | VPanic => Dies end.
  Lemma ends_finish (N : time → Prop) k (j : job M) failed :
    (∀ i, (k <= i < (finish_of prof sched clock k j failed).1)%nat → N (clock i)) →
    ends_without_retry sched N j failed (ending_of (finish_of prof sched clock k j failed).2).
  Proof.
    unfold finish_of, tick_of, ends_without_retry. cbn [fst snd].
    destruct (jtype (ctx j)) as [|a|x slot n cc]; [intros _; by destruct failed..|].
    destruct (sched x) as [next|]; [|intros _; by destruct failed].
    intros HN. exists (clock k), (clock (S k)).
    assert (N (clock k) ∧ N (clock (S k))) as [H1 H2].
    { destruct (next (clock (S k))) as [t|]; [destruct (i32_norm prof (n + 1))|]; cbn [fst] in HN; split; apply HN; lia. }
    split; [done|]. split; [done|]. cbv zeta. clear HN.
    set (past := match max_repeat cc with Some m => m <? n | None => false end || _).
    destruct (next (clock (S k))) as [t|]; cbn [snd].
    - unfold i32_norm, in_i32. destruct (decide (i32_min <= n + 1 <= i32_max)) as [Hin|Hout].
      + rewrite !(proj2 (Z.leb_le _ _)) by lia. cbn [andb snd]. by destruct past, failed.
      + destruct ((i32_min <=? n + 1) && (n + 1 <=? i32_max)) eqn:E.
        { apply andb_true_iff in E as [?%Z.leb_le ?%Z.leb_le]. lia. }
        destruct prof; cbn [snd].
        * by destruct past; left.
        * destruct past; right; [by destruct failed|]. by eexists.
    - by destruct past, failed.
  Qed.
  Lemma ends_judge (N : time → Prop) k (j : job M) u :
    (∀ i, (k <= i < (judge prof sched clock k j u).1)%nat → N (clock i)) →
    ends sched N j u (ending_of (judge prof sched clock k j u).2).
  Proof.
    unfold judge, ends. destruct (jretry (ctx j)) as [r|] eqn:Ej; [|apply ends_finish].
    unfold retry_of. destruct (ur_retry u) as [failed|r' [t|]].
    2:{ done. }
    2:{ apply ends_finish. }
    change (should_retry r) with (match max_retries r with Some m => retried_times r <? m | None => true end).
    unfold wants_retry. destruct (failed && _); [|rewrite with_retry_same by done; apply ends_finish].
    intros HN. exists (clock k). split.
    { apply HN. destruct (retry_retry_at prof r (clock k)) as [[r' t]|]; cbn [fst]; lia. }
    clear HN. unfold retry_retry_at, delay. destruct (strat r) as [d|d] eqn:Es.
    - destruct (decide (i32_min <= retried_times r < i32_max)) as [Hin|Hout].
      + assert (i32_norm prof (retried_times r + 1) = Some (retried_times r + 1)) as ->.
        { unfold i32_norm, in_i32. by rewrite !(proj2 (Z.leb_le _ _)) by lia. }
        cbn [mbind option_bind]. unfold dt_add.
        destruct (decide (dt_min <= clock k + d <= dt_max)) as [H|H].
        * rewrite !(proj2 (Z.leb_le _ _)) by lia. done.
        * destruct (_ && _) eqn:E; [|done]. apply andb_true_iff in E as [?%Z.leb_le ?%Z.leb_le]. lia.
      + destruct (i32_norm prof _) as [c|]; [|by left]. cbn [mbind option_bind].
        destruct (dt_add _ _) as [t|]; [|by left]. right. cbn. do 2 eexists. split; [|split; [|reflexivity]]; done.
    - destruct (decide (0 <= retried_times r <= 29)) as [Hin|Hout].
      + assert (i32_norm prof (retried_times r + 1) = Some (retried_times r + 1)) as ->.
        { unfold i32_norm, in_i32, i32_min, i32_max. by rewrite !(proj2 (Z.leb_le _ _)) by lia. }
        cbn [mbind option_bind]. rewrite (pow2_small prof) by done. cbn [mbind option_bind]. unfold dt_add.
        destruct (decide (dt_min <= clock k + d * 2 ^ (retried_times r + 1) <= dt_max)) as [H|H].
        * rewrite !(proj2 (Z.leb_le _ _)) by lia. done.
        * destruct (_ && _) eqn:E; [|done]. apply andb_true_iff in E as [?%Z.leb_le ?%Z.leb_le]. lia.
      + destruct (i32_norm prof _) as [c|]; [|by left]. cbn [mbind option_bind].
        destruct (pow2_i32 prof c) as [p|]; [|by left]. cbn [mbind option_bind].
        destruct (dt_add _ _) as [t|]; [|by left]. right. cbn. do 2 eexists. split; [|split; [|reflexivity]]; done.
  Qed.

  (** *** The steps *)
  Notation N s s' := (read_between clock s s').
  Notation refines s e := (sched_step sched (N s (step s e).1) (show s) e (step s e).2 (show (step s e).1)).

  Lemma rest_same (b : board M) u l w sl x r : up b = u → limit b = l → waiting b = w → slots b = sl → execs b = x →
    begun b = r → rest_is b u l w sl x r.
  Proof. intros. subst. repeat split; done. Qed.
  Lemma unchanged_refl (b : board M) : unchanged b b.
  Proof. split; [by intros k|]. by apply rest_same. Qed.
  Lemma read_now (s s' : sys) k : (reads (sw s) <= k)%nat → (k < reads (sw s'))%nat → N s s' (clock k).
  Proof. intros. exists k. done. Qed.

  Lemma sim_enqueue s j c : alive s = true → refines s (EvEnqueue j c).
  Proof.
    intros Ha. rewrite step_enqueue by done. unfold sched_step. cbn [SpecSched.show up]. rewrite Ha. split; [done|].
    unfold submit, SpecSched.show. cbn [records fst alive sw cfg tasks runs]. unfold do_run.
    assert (∀ w0, (∀ k, k ≠ jid j → stored w0 k = stored (sw s) k) → reads w0 = reads (sw s) →
      (∀ st, qlist w0 st = qlist (sw s) st) →
      queued (N s (Sys (do_enqueue name clock w0 j) (cfg s) (tasks s) true (runs s))) (show s)
        (show (Sys (do_enqueue name clock w0 j) (cfg s) (tasks s) true (runs s))) j) as Henq.
    { intros w0 Hs0 Hr0 Hq0. exists (clock (reads (sw s))). split; [apply read_now; cbn; lia|]. split.
      - apply with_norm. intros k. cbn [records SpecSched.show sw]. rewrite stored_do_enqueue.
        destruct (bool_decide_reflect (k = jid j)); [|by apply Hs0]. unfold now_ms. by rewrite Hr0.
      - unfold SpecSched.show. apply rest_same; cbn; try done.
        + rewrite (qlist_do_enqueue name clock w0 j Queued), bool_decide_true by done. cbn [rev]. by rewrite Hq0.
        + rewrite (qlist_do_enqueue name clock w0 j Running). apply Hq0. }
    destruct (stored (sw s) (jid j)) as [old|] eqn:Eo; [|by apply Henq].
    rewrite is_done_in. unfold is_running.
    destruct (re_run c && _).
    { destruct (override_data c && _); [|by apply Henq]. apply Henq; [|done|].
      - intros k Hk. rewrite stored_put. by rewrite bool_decide_false.
      - intros st. apply qlist_put. }
    destruct (override_data c && _); [|rewrite ?Ha; apply unchanged_refl].
    split.
    - apply with_norm. intros k. cbn. by rewrite stored_put.
    - apply rest_same; cbn [up limit waiting slots execs begun]; rewrite ?qlist_put; done.
  Qed.

  Lemma sim_cancel s id : all_at s → alive s = true → refines s (EvCancel id).
  Proof.
    intros Hall Ha. rewrite step_cancel by done. unfold sched_step. cbn [SpecSched.show up]. rewrite Ha. split; [done|].
    unfold SpecSched.cancel, SpecSched.show. cbn [records fst alive sw cfg tasks runs]. unfold do_cancel.
    destruct (stored (sw s) id) as [j|] eqn:Eo; [|rewrite ?Ha; apply unchanged_refl]. unfold is_queued.
    destruct (decide (jstatus (ctx j) = Queued)) as [Hq|Hq].
    2:{ rewrite bool_decide_false by done. rewrite ?Ha; apply unchanged_refl. }
    rewrite bool_decide_true by done. pose proof (all_at_keyed name s Hall id j Eo) as Hid.
    exists (clock (reads (sw s))). split; [apply read_now; cbn; lia|]. split.
    - apply with_norm. intros k. cbn [records SpecSched.show sw]. rewrite stored_rem, stored_save.
      change (jid (can j (now_ms clock (sw s)))) with (jid j). rewrite Hid. by destruct (bool_decide _).
    - apply rest_same; cbn [up limit waiting slots execs begun]; try done.
      + rewrite qlist_rem, bool_decide_true, qlist_save, qlist_tick by done. apply without_rev.
      + rewrite qlist_rem, bool_decide_false, qlist_save, qlist_tick by done. done.
  Qed.
  Lemma sim_retry s id : all_at s → alive s = true → refines s (EvRetry id).
  Proof.
    intros Hall Ha. rewrite step_retry by done. unfold sched_step. cbn [SpecSched.show up]. rewrite Ha.
    exists (retry_answer (M := M) (sw s) id). split; [done|].
    unfold retry_by_hand, SpecSched.show. cbn [records fst alive sw cfg tasks runs]. unfold do_retry, retry_answer.
    destruct (stored (sw s) id) as [j|] eqn:Eo; [|split; [done|rewrite ?Ha; apply unchanged_refl]]. rewrite is_done_in.
    destruct (bool_decide_reflect (jstatus (ctx j) ∈ [Finished; Failed; Canceled])) as [Hd|Hd];
      [|split; [done|rewrite ?Ha; apply unchanged_refl]].
    split; [done|]. exists (clock (reads (sw s))). split; [apply read_now; cbn; lia|]. split.
    - apply with_norm. intros k. cbn [records SpecSched.show sw]. rewrite stored_do_re_enqueue. by destruct (bool_decide _).
    - assert (jstatus (ctx j) ≠ Queued ∧ jstatus (ctx j) ≠ Running) as [H1 H2].
      { split; intros E; rewrite E in Hd; clear -Hd; set_solver. }
      apply rest_same; cbn [up limit waiting slots execs begun]; try done.
      + rewrite qlist_do_re_enqueue. cbv zeta. rewrite bool_decide_true, bool_decide_false by congruence. done.
      + rewrite qlist_do_re_enqueue. cbv zeta. rewrite (bool_decide_false (Running = Queued)), bool_decide_false by congruence. done.
  Qed.
  Lemma sim_get s id : alive s = true → refines s (EvGet id).
  Proof.
    intros Ha. rewrite step_get. unfold sched_step. cbn [SpecSched.show up]. rewrite Ha. split; [done|]. rewrite ?Ha; apply unchanged_refl.
  Qed.
  Lemma sim_config s c : alive s = true → refines s (EvConfig c).
  Proof.
    intros Ha. unfold sched_step. cbn [SpecSched.show up]. unfold sys_step. rewrite Ha. unfold commit. cbn [ev_prog run fst snd].
    split; [done|]. split; [by intros k|]. rewrite app_nil_r. by apply rest_same.
  Qed.

  (** Of the tick. *)
  Lemma sim_pick (s : sys) w' js c ts (a : bool) (rs : list (job M)) o :
    all_at s → do_pick prof name clock (max_processing_jobs c) (sw s) = (w', js, o) →
    Z.of_nat (length (qlist (sw s) Queued)) < 2 ^ 31 →
    o = Done tt ∧
    tick (N s (Sys w' c (ts ++ map spawn js) true rs)) (show (Sys (sw s) c ts true rs)) (show (Sys w' c (ts ++ map spawn js) true rs)).
  Proof.
    intros Hall Hp Hl. unfold do_pick in Hp. set (b := show (Sys (sw s) c ts true rs)).
    set (b' := show (Sys w' c (ts ++ map spawn js) true rs)).
    assert (∀ js0, execs b ++ map (λ j, (j, Taken)) js0 = map (λ t, (t_job t, stage_of (t_phase t))) (ts ++ map spawn js0)) as Hex.
    { intros js0. rewrite map_app, map_map. done. }
    destruct (Nat.leb_spec (max_processing_jobs c) (length (qlist (sw s) Running))) as [Hfull|Hfree].
    { injection Hp as <- <- <-. split; [done|]. right. exists [], (waiting b). split.
      { apply rounds_end. right. cbn. lia. }
      split; [by intros j Hj%not_elem_of_nil|]. split; [done|]. split; [done|]. split; [done|]. split; [done|].
      split; [done|]. split; [|done]. by rewrite Hex. }
    rewrite wrap32_id in Hp by (unfold i32_min, i32_max; lia).
    set (N0 := N s (Sys w' c (ts ++ map spawn js) true rs)).
    destruct (rounds_loop N0 b (S (length (qlist (sw s) Queued))) (max_processing_jobs c - length (qlist (sw s) Running))
      (length (qlist (sw s) Queued)) [] (Z.of_nat (length (qlist (sw s) Queued))) (sw s)) as (js' & H1 & H2 & H3 & H4 & H5 & H6 & H7).
    - by apply (all_at_nodup name).
    - done.
    - unfold i32_max. lia.
    - done.
    - by intros ?%nil_length_inv.
    - lia.
    - cbn. lia.
    - intros id Hin. split; [apply not_elem_of_nil|]. destruct (all_at_stored name s id Hall Hin) as (j & Hj & Hat).
      exists j. split; [done|]. split; [done|]. by destruct Hat as (_ & ? & ? & _).
    - intros k Hk. rewrite Hp in Hk. cbn [fst] in Hk. apply read_now; cbn; lia.
    - rewrite Hp in H1, H2, H3, H4, H5, H6. cbn [fst snd app] in *. subst js'. subst o. split; [done|]. right.
      exists js, (rev (qlist w' Queued)). split.
      { cbn [limit waiting slots b SpecSched.show cfg sw]. rewrite rev_length. cbn [length] in H3. rewrite Nat.sub_0_r in H3. exact H3. }
      split; [done|]. split; [done|]. split; [done|]. split; [done|]. split; [done|]. split; [|split; [|done]].
      + cbn [slots b' SpecSched.show sw b]. by rewrite H4.
      + by rewrite Hex.
  Qed.
  Lemma sim_tick s : all_at s → alive s = true → refines s EvTick.
  Proof.
    intros Hall Ha.
    destruct (Z.lt_ge_cases (Z.of_nat (length (qlist (sw s) Queued))) (2 ^ 31)) as [Hl|Hl].
    2:{ unfold sched_step. cbn [SpecSched.show up]. rewrite Ha. split.
        - unfold sys_step. rewrite Ha. unfold commit. cbn [ev_prog]. rewrite run_bind.
          destruct (run h (process_jobs prof name (cfg s) (tasks s)) (sw s)) as [w' [x| |]]; done.
        - left. cbn [waiting SpecSched.show]. by rewrite rev_length. }
    unfold sched_step. cbn [SpecSched.show up]. rewrite Ha.
    unfold sys_step. rewrite Ha. unfold commit. cbn [ev_prog]. rewrite run_bind, run_process_jobs. cbv zeta.
    destruct (do_pick prof name clock (max_processing_jobs (cfg s)) (sw s)) as [[w' js] o] eqn:Ep.
    destruct (sim_pick s w' js (cfg s) (tasks s) true (runs s) o Hall Ep Hl) as [-> Ht]. cbn [fst snd run].
    split; [done|]. rewrite app_nil_r. destruct s as [w c ts a rs]. cbn in Ha. subst a. exact Ht.
  Qed.
  Lemma sim_start s : all_at s → alive s = false → refines s EvStart.
  Proof.
    intros Hall Ha.
    destruct (Z.lt_ge_cases (Z.of_nat (length (qlist (sw s) Queued))) (2 ^ 31)) as [Hl|Hl].
    2:{ unfold sched_step. cbn [SpecSched.show up]. rewrite Ha. split.
        - unfold sys_step. rewrite Ha. unfold commit. cbn [ev_prog]. rewrite run_bind.
          destruct (run h (process_jobs prof name _ _) (sw s)) as [w' [x| |]]; done.
        - left. cbn [waiting SpecSched.show]. by rewrite rev_length. }
    unfold sched_step. cbn [SpecSched.show up]. rewrite Ha.
    unfold sys_step. rewrite Ha. unfold commit. cbn [ev_prog]. rewrite run_bind, run_process_jobs. cbv zeta.
    destruct (do_pick prof name clock (max_processing_jobs wq_config_default) (sw s)) as [[w' js] o] eqn:Ep.
    destruct (sim_pick s w' js wq_config_default [] true (runs s) o Hall Ep Hl) as [-> Ht]. cbn [fst snd run].
    split; [done|]. rewrite app_nil_r. exact Ht.
  Qed.

  Lemma sim_task s i u : all_at s → alive s = true → refines s (EvTask i u).
  Proof.
    intros Hall Ha. unfold sched_step. cbn [SpecSched.show up]. rewrite Ha. split.
    { unfold sys_step. rewrite Ha. unfold commit. cbn [ev_prog]. destruct (tasks s !! i) as [t|]; [|done].
      rewrite run_bind. destruct (run h (task_step prof sched name t u) (sw s)) as [w' [[x y]| |]]; done. }
    unfold go_on. cbn [execs SpecSched.show]. rewrite list_lookup_fmap. destruct (tasks s !! i) as [t|] eqn:Et; cbn [fmap option_fmap option_map].
    2:{ unfold sys_step. rewrite Ha. unfold commit. cbn [ev_prog]. rewrite Et. cbn [run fst]. rewrite app_nil_r.
        destruct s as [w c ts a rs]. cbn in Ha. subst a. rewrite ?Ha; apply unchanged_refl. }
    pose proof (at_task_of name s i t Hall Et) as (_ & _ & Hok). destruct (task_ok_jid t Hok) as [Hid Hrun].
    assert (is_cancelled (t_job t) = false) as Hc by (unfold is_cancelled; rewrite bool_decide_false; congruence).
    rewrite (step_task prof sched name clock s i t u Ha Et Hc).
    destruct (t_phase t) eqn:Ep; cbn [stage_of].
    - split; [by intros k|]. apply rest_same; try done; [|cbn; by rewrite app_nil_r].
      cbn [execs SpecSched.show tasks]. by rewrite list_fmap_insert.
    - split; [by intros k|]. apply rest_same; try done. cbn [execs SpecSched.show tasks]. by rewrite list_fmap_insert.
    - split; [by intros k|]. apply rest_same; try done; [|cbn; by rewrite app_nil_r].
      cbn [execs SpecSched.show tasks]. by rewrite list_fmap_insert.
    - cbv zeta.
      destruct (judge prof sched clock (reads (sw s)) (t_job t) u) as [k v] eqn:Ej.
      pose proof (judge_spec prof sched clock _ _ _ _ _ Ej) as [Hk Hsame]. cbn [snd].
      set (s' := match v with VPanic => _ | _ => _ end). exists (ending_of v).
      assert (do_tail prof sched name clock (sw s) (t_job t) u = do_verdict name clock (w_reads (sw s) k) v) as Hw'.
      { unfold do_tail. by rewrite Ej. }
      assert ((k <= reads (sw s'))%nat ∧ (v = VPanic ∨ (k < reads (sw s'))%nat)) as [Hk1 Hk2].
      { unfold s'. rewrite Hw'. destruct v; cbn; split; try lia; [right; lia..|by left]. }
      split.
      { replace v with (judge prof sched clock (reads (sw s)) (t_job t) u).2 by by rewrite Ej.
        apply ends_judge. rewrite Ej. cbn [fst]. intros i0 Hi0. apply read_now; lia. }
      assert (v ≠ VPanic → N s s' (clock k)) as HN.
      { intros Hv. destruct Hk2; [done|]. apply read_now; lia. }
      clear Ej Hk1 Hk2. unfold s' in *. clear s'. rewrite Hw' in *. clear Hw'.
      assert (∀ id, stored (w_reads (sw s) k) id = stored (sw s) id) as Hst by done.
      assert (∀ st, qlist (w_reads (sw s) k) st = qlist (sw s) st) as Hql by done.
      assert (now_ms clock (w_reads (sw s) k) = ms_of (clock k)) as Hnow by done.
      set (w0 := w_reads (sw s) k) in *. clearbody w0.
      destruct v as [nj|nj|nj|]; cbn [ending_of do_verdict].
      4:{ split; [intros id; apply Hst|]. apply rest_same; try done; cbn [waiting slots SpecSched.show sw]; by rewrite Hql. }
      all: exists (clock k); split; [by apply HN|]; clear HN.
      all: destruct Hsame as [Hs1 Hs2]; rewrite <-Hs1.
      all: split; [apply with_norm; intros id; cbn [records SpecSched.show sw]|
                   apply rest_same; try done; cbn [waiting slots SpecSched.show sw execs tasks]].
      all: try (by rewrite list_fmap_delete).
      all: rewrite ?stored_do_re_enqueue, ?stored_do_fail, ?stored_do_finish, ?Hst, ?Hnow; try done.
      all: rewrite ?qlist_do_re_enqueue, ?qlist_do_fail, ?qlist_do_finish, ?Hql; try done.
      + cbv zeta. rewrite bool_decide_true, Hs2, Hrun, bool_decide_false by done. cbn [rev]. by rewrite Hql.
      + cbv zeta. rewrite (bool_decide_false (Running = Queued)), Hs2, Hrun, bool_decide_true by done. by rewrite Hql.
  Qed.

  Lemma sim_dead s : same_records (show s) (show (Sys (sw s) (cfg s) [] false (runs s))) ∧
    rest_is (show (Sys (sw s) (cfg s) [] false (runs s))) false (limit (show s)) (waiting (show s)) (slots (show s)) [] (begun (show s)).
  Proof. split; [by intros k|]. by apply rest_same. Qed.

  Lemma sim_step s e : all_at s → ok_event s e → refines s e.
  Proof.
    intros Hall Hok. destruct (alive s) eqn:Ha.
    - destruct e as [j c|id|id|id|c| |i u| | |e n|].
      + by apply sim_enqueue.
      + by apply sim_cancel.
      + by apply sim_get.
      + by apply sim_retry.
      + by apply sim_config.
      + by apply sim_tick.
      + by apply sim_task.
      + unfold sched_step, sys_step. cbn [SpecSched.show up]. rewrite Ha. split; [done|]. apply sim_dead.
      + unfold sched_step, sys_step. cbn [SpecSched.show up]. rewrite Ha. split; [done|]. apply sim_dead.
      + done.
      + unfold sched_step, sys_step. cbn [SpecSched.show up]. rewrite Ha. split; [done|]. apply unchanged_refl.
    - destruct e as [j c|id|id|id|c| |i u| | |e n|].
      11:{ by apply sim_start. }
      10:{ done. }
      all: unfold sched_step, sys_step; cbn [SpecSched.show up]; rewrite Ha; split; [done|]; apply unchanged_refl.
  Qed.

  (** *** Histories *)
  Notation ok_hist := (ok_hist prof sched name clock).
  Notation go := (sys_run prof sched name h).
  Lemma reads_call X (e : eff X) w : (reads w <= reads (mem_h clock X e w).1)%nat.
  Proof. destruct e; cbn; try lia. by destruct (mem_move _ _ _ _ _ _). Qed.
  Lemma reads_run {A} (p : prog A) w : (reads w <= reads (run h p w).1)%nat.
  Proof.
    revert w. induction p as [a| | |X e f IH]; intros w; cbn; try lia.
    pose proof (reads_call X e w) as Hm. destruct (mem_h clock X e w) as [w' x]. cbn in Hm. specialize (IH x w'). lia.
  Qed.
  Lemma reads_sched s e : ok_event s e → (reads (sw s) <= reads (sw (step s e).1))%nat.
  Proof.
    assert (∀ e0, reads (sw s) <= reads (sw (commit prof sched name h s e0).1))%nat as Hc.
    { intros e0. unfold commit. pose proof (reads_run (ev_prog prof sched name (cfg s) (tasks s) e0) (sw s)) as Hr.
      destruct (run h _ (sw s)) as [w' [[[[c ts] js] r]| |]]; done. }
    unfold sys_step. destruct (alive s), e; intros Hok; try apply Hc; try done.
  Qed.
  Lemma sim_run s es : all_at s → ok_hist s es →
    sched_run sched clock (reads (sw s)) (show s) es (responses prof sched name h s es)
      (reads (sw (go s es))) (show (go s es)).
  Proof.
    revert s. induction es as [|e es IH]; intros s Hall Hok; [constructor|]. destruct Hok as [He Hok].
    cbn [responses]. econstructor; [|exact (sim_step s e Hall He)|].
    - by apply reads_sched.
    - apply IH; [|done]. by apply life_step.
  Qed.
  Lemma show_fresh : fresh (show (sys_init world_empty)).
  Proof. repeat split. Qed.

  Lemma sched_refines es e :
    let s := after prof sched name clock es in
    let (s', r) := step s e in
    ok_hist initial (es ++ [e]) →
    sched_step sched (read_between clock s s') (show s) e r (show s').
  Proof.
    cbv zeta. destruct (step _ e) as [s' r] eqn:E. intros Hok. apply ok_hist_app in Hok as [Hes [He _]].
    pose proof (sim_step _ e (all_at_after prof sched name clock es Hes) He) as H.
    unfold after in H, E. rewrite E in H. exact H.
  Qed.
  Lemma sched_history es :
    ok_hist initial es →
    ∃ b0 k, fresh b0 ∧
      sched_run sched clock 0 b0 es (responses prof sched name h (sys_init world_empty) es)
        k (show (after prof sched name clock es)).
  Proof.
    intros Hok. do 2 eexists. split; [apply show_fresh|]. apply (sim_run (sys_init world_empty)); [|done].
    apply all_at_initial.
  Qed.
  Lemma sched_redis es :
    ok_hist initial es →
    ∃ b0 k b, fresh b0 ∧
      let s := sys_run prof sched name (redis_h clock) (sys_init rworld_empty) es in
      sched_run sched clock 0 b0 es (responses prof sched name (redis_h clock) (sys_init rworld_empty) es) k b ∧
      begun b = runs s ∧ up b = alive s ∧
      Backend.rlist (keys (sw s)) (format_queue_name name Queued) = Some (rev (waiting b)) ∧
      Backend.rlist (keys (sw s)) (format_queue_name name Running) = Some (slots b).
  Proof.
    intros Hok. destruct (sched_history es Hok) as (b0 & k & Hb & Hr).
    destruct (redis_histories prof sched name clock es) as (H1 & H2 & H3 & H4 & H5).
    exists b0, k, (show (after prof sched name clock es)). split; [done|]. cbv zeta. rewrite H1 in Hr. split; [exact Hr|].
    split; [exact H2|]. split; [exact H4|]. rewrite !H5. cbn [waiting SpecSched.show]. rewrite rev_involutive. done.
  Qed.
End facts.
