(** The order in which a tick starts jobs, for waiting lists of any length. *)
From Verif Require Import Spec JsonFacts BackendFacts WorldFacts MicroFacts LifeFacts HistFacts SubmitFacts LifeProps ListFacts ApiFacts PickFacts StarveFacts.

Section order.
  Context {M : Type} `{SM : Serde M} {SO : SerdeOk M}.
  Context (prof : profile).
  Context (sched : string → option (time → option time)).
  Context (name : string).
  Context (clock : nat → time).
  Notation h := (mem_h clock).
  Notation qlist := (qlist name).
  Notation stored := (@stored M SM).
  Notation sys := (sys world M).
  Notation step := (sys_step prof sched name h).
  Notation keyed := (keyed (M := M)).
  Notation all_at := (all_at name).

  Lemma filter_none (P : string → Prop) `{!∀ x, Decision (P x)} (l : list string) :
    (∀ x, x ∈ l → ¬ P x) → filter P l = [].
  Proof.
    induction l as [|x l IH]; [done|]. intros Hall. rewrite filter_cons, decide_False by (apply Hall; by left).
    apply IH. intros y Hy. apply Hall. by right.
  Qed.
  Lemma filter_all (P : string → Prop) `{!∀ x, Decision (P x)} (l : list string) :
    (∀ x, x ∈ l → P x) → filter P l = l.
  Proof.
    induction l as [|x l IH]; [done|]. intros Hall. rewrite filter_cons, decide_True by (apply Hall; by left).
    f_equal. apply IH. intros y Hy. apply Hall. by right.
  Qed.
  Lemma in_take_filter (rdy : string → bool) n l x : x ∈ take n (filter (λ id, rdy id = true) l) → x ∈ l ∧ rdy x = true.
  Proof.
    intros Hin. assert (x ∈ filter (λ id, rdy id = true) l) as Hf.
    { eapply elem_of_submseteq; [exact Hin|]. apply sublist_submseteq, sublist_take. }
    apply elem_of_list_filter in Hf as [? ?]. done.
  Qed.

  Lemma scan_loop_fifo (rdy : string → bool) fuel total ready cursor w pend seen :
    rev (qlist w Queued) = pend ++ seen → cursor = Z.of_nat (length pend) →
    Z.of_nat (length pend) <= i32_max → (length pend < fuel)%nat → keyed w → NoDup (pend ++ seen) →
    (∀ id, id ∈ pend ++ seen → id ∉ map jid ready) →
    (∀ id, id ∈ pend ++ seen → ∃ j, stored w id = Some j ∧ ∀ k, is_ready j (clock k) = rdy id) →
    (∀ id, id ∈ seen → rdy id = false) → (length ready < total)%nat →
    let r := scan_loop prof name clock fuel total ready cursor w in
    let chosen := take (total - length ready) (filter (λ id, rdy id = true) pend) in
    r.2 = Done tt ∧ map jid r.1.2 = map jid ready ++ chosen ∧
    ∃ A B, seen ++ filter (λ id, id ∉ chosen) pend = A ++ B ∧ rev (qlist r.1.1 Queued) = B ++ A.
  Proof.
    revert ready cursor w pend seen. induction fuel as [|fuel IH]; intros ready cursor w pend seen; [lia|].
    intros Hq -> Hmax Hfuel Hk Hnd Hdis Hst Hseen Hlen.
    cbn [scan_loop]. rewrite Hq. set (ids := take BATCH (pend ++ seen)).
    assert (length ids = Nat.min 20 (length pend + length seen)) as Hids.
    { unfold ids. by rewrite take_length, app_length. }
    assert (i32_norm prof (Z.of_nat (length pend) - Z.of_nat (length ids)) =
      Some (Z.of_nat (length pend) - Z.of_nat (length ids))) as ->.
    { unfold i32_norm, in_i32. rewrite Hids. unfold i32_min, i32_max in *.
      rewrite (proj2 (Z.leb_le _ _)) by lia. rewrite (proj2 (Z.leb_le _ _)) by lia. done. }
    assert (rev (qlist w Queued) = ids ++ drop BATCH (pend ++ seen)) as Hq'.
    { rewrite Hq. unfold ids. by rewrite take_drop. }
    assert (∀ x, x ∈ ids → x ∈ pend ++ seen) as Hsub.
    { intros x Hx. rewrite <-(take_drop BATCH (pend ++ seen)). apply elem_of_app. by left. }
    assert (NoDup ids ∧ (∀ x, x ∈ ids → x ∉ drop BATCH (pend ++ seen))) as [Hndi Hndd].
    { rewrite <-(take_drop BATCH (pend ++ seen)) in Hnd. fold ids in Hnd. apply NoDup_app in Hnd as (? & ? & _). done. }
    destruct (scan_batch_fifo sched name clock rdy total ids (drop BATCH (pend ++ seen)) ready w Hq' Hk Hndi)
      as [Hrd Hwt]; [by auto|by auto|].
    destruct (scan_batch_spec sched name clock total ids (drop BATCH (pend ++ seen)) ready w Hq' Hk)
      as (kept & new & H1 & H2 & _ & _ & _ & _ & H7 & H8 & H9 & _ & _ & _ & _).
    cbv zeta in Hrd, Hwt, H1, H2, H7, H8.
    destruct (scan_batch name clock total ids ready w) as [w' ready'] eqn:Esb. cbn [fst snd] in *.
    set (chosen1 := take (total - length ready) (filter (λ id, rdy id = true) ids)) in *.
    assert (length ready' = length ready + length chosen1)%nat as Hlr.
    { rewrite <-(map_length jid ready'), Hrd, app_length, map_length. done. }
    assert (map jid new = chosen1) as Hnew.
    { subst ready'. rewrite map_app in Hrd. by apply app_inv_head in Hrd. }
    assert (length chosen1 = Nat.min (total - length ready) (length (filter (λ id, rdy id = true) ids))) as Hlc
      by apply take_length.
    destruct (decide (20 <= length pend)%nat) as [Hbig|Hsmall].
    - (* the batch is a part of the ids not yet looked at *)
      assert (ids = take 20 pend) as Ei.
      { unfold ids, BATCH. rewrite take_app_le by lia. done. }
      assert (drop BATCH (pend ++ seen) = drop 20 pend ++ seen) as Ed.
      { unfold BATCH. by rewrite drop_app_le by lia. }
      assert (pend = ids ++ drop 20 pend) as Ep by by rewrite Ei, take_drop.
      set (pend' := drop 20 pend) in *.
      set (chosen := take (total - length ready) (filter (λ id, rdy id = true) pend)).
      assert (filter (λ id, rdy id = true) pend =
        filter (λ id, rdy id = true) ids ++ filter (λ id, rdy id = true) pend') as Ef.
      { rewrite Ep at 1. by rewrite list.filter_app. }
      assert (∀ x, x ∈ chosen1 → x ∈ ids) as Hc1 by (intros x Hx; by apply in_take_filter in Hx as [? _]).
      destruct (Nat.leb_spec total (length ready')) as [Hfull|Hroom].
      + cbn [fst snd]. assert (chosen = chosen1) as Ec.
        { unfold chosen, chosen1. rewrite Ef. rewrite take_app_le; [done|]. lia. }
        rewrite Ec. split; [done|]. split; [done|].
        exists (seen ++ filter (λ id, id ∉ chosen1) ids), pend'. split.
        * rewrite Ep at 1. rewrite list.filter_app, <-app_assoc. f_equal. f_equal. apply filter_all.
          intros x Hx Hin. apply (Hndd x (Hc1 x Hin)). rewrite Ed. apply elem_of_app. by left.
        * rewrite Hwt, Ed. by rewrite app_assoc.
      + assert (chosen1 = filter (λ id, rdy id = true) ids) as Ec1.
        { unfold chosen1. apply take_ge. lia. }
        assert (chosen = chosen1 ++ take (total - length ready') (filter (λ id, rdy id = true) pend')) as Ec.
        { unfold chosen. rewrite Ef, <-Ec1. rewrite take_app_ge by lia. f_equal. f_equal. lia. }
        set (chosen2 := take (total - length ready') (filter (λ id, rdy id = true) pend')) in *.
        assert (filter (λ id, id ∉ chosen) pend = filter (λ id, id ∉ chosen1) ids ++ filter (λ id, id ∉ chosen2) pend') as Eu.
        { rewrite Ep at 1. rewrite list.filter_app, Ec. f_equal.
          - apply list_filter_iff'. intros x Hx. rewrite not_elem_of_app. split; [by intros [? _]|]. intros Hn. split; [done|].
            intros [Hin _]%in_take_filter. apply (Hndd x Hx). rewrite Ed. apply elem_of_app. by left.
          - apply list_filter_iff'. intros x Hx. rewrite not_elem_of_app. split; [by intros [_ ?]|]. intros Hn. split; [|done].
            intros Hin. apply (Hndd x (Hc1 x Hin)). rewrite Ed. apply elem_of_app. by left. }
        assert (rev (qlist w' Queued) = pend' ++ (seen ++ filter (λ id, id ∉ chosen1) ids)) as Hw'.
        { rewrite Hwt, Ed. by rewrite app_assoc. }
        destruct (Z.of_nat (length pend) - Z.of_nat (length ids) <=? 0) eqn:Ez.
        * apply Z.leb_le in Ez. cbn [fst snd].
          assert (pend' = []) as Ep'.
          { apply nil_length_inv. assert (length pend = length ids + length pend')%nat by (rewrite Ep at 1; apply app_length). lia. }
          assert (chosen2 = []) as Ec2 by (unfold chosen2; rewrite Ep'; apply take_nil).
          rewrite Ec, Ec2, app_nil_r. split; [done|]. split; [done|].
          exists (seen ++ filter (λ id, id ∉ chosen1) ids), []. split.
          -- rewrite app_nil_r. f_equal. rewrite Ep at 1. by rewrite Ep', app_nil_r.
          -- by rewrite Hw', Ep'.
        * apply Z.leb_gt in Ez.
          assert (length pend = length ids + length pend')%nat as Hlp by (rewrite Ep at 1; apply app_length).
          destruct (IH ready' (Z.of_nat (length pend) - Z.of_nat (length ids)) w' pend'
            (seen ++ filter (λ id, id ∉ chosen1) ids)) as (R1 & R2 & A & B & R3 & R4); try done.
          -- lia.
          -- lia.
          -- lia.
          -- assert (pend ++ seen ≡ₚ (pend' ++ seen) ++ ids) as Hp by (rewrite Ep at 1; solve_Permutation).
             rewrite Hp in Hnd. rewrite app_assoc. apply NoDup_app in Hnd as (Hn1 & Hn2 & Hn3). apply NoDup_app.
             split; [done|]. split; [|by apply list.NoDup_filter].
             intros x Hx [_ Hx']%elem_of_list_filter. by apply (Hn2 x).
          -- intros x Hx. rewrite Hrd. apply not_elem_of_app. split.
             ++ apply Hdis. rewrite Ep. apply elem_of_app in Hx as [Hx|Hx]; [(rewrite ?elem_of_app; tauto)|].
                apply elem_of_app in Hx as [Hx|Hx]; [(rewrite ?elem_of_app; tauto)|]. apply elem_of_list_filter in Hx as [_ Hx]. (rewrite ?elem_of_app; tauto).
             ++ intros Hin. apply elem_of_app in Hx as [Hx|Hx]; [|apply elem_of_app in Hx as [Hx|Hx]].
                ** apply (Hndd x (Hc1 x Hin)). rewrite Ed. (rewrite ?elem_of_app; tauto).
                ** apply (Hndd x (Hc1 x Hin)). rewrite Ed. (rewrite ?elem_of_app; tauto).
                ** apply elem_of_list_filter in Hx as [Hx _]. done.
          -- intros x Hx. assert (x ∈ pend ++ seen ∧ x ∉ map jid new) as [Hx1 Hx2].
             { rewrite Hnew. apply elem_of_app in Hx as [Hx|Hx]; [|apply elem_of_app in Hx as [Hx|Hx]].
               - split; [rewrite Ep; (rewrite ?elem_of_app; tauto)|]. intros Hin. apply (Hndd x (Hc1 x Hin)). rewrite Ed. (rewrite ?elem_of_app; tauto).
               - split; [(rewrite ?elem_of_app; tauto)|]. intros Hin. apply (Hndd x (Hc1 x Hin)). rewrite Ed. (rewrite ?elem_of_app; tauto).
               - apply elem_of_list_filter in Hx as [Hx Hx']. split; [rewrite Ep; (rewrite ?elem_of_app; tauto)|done]. }
             rewrite H8 by done. by apply Hst.
          -- intros x Hx. apply elem_of_app in Hx as [Hx|Hx]; [by apply Hseen|].
             apply elem_of_list_filter in Hx as [Hx Hx']. rewrite Ec1 in Hx.
             destruct (rdy x) eqn:Er; [|done]. exfalso. apply Hx. apply elem_of_list_filter. done.
          -- fold chosen2 in R2, R3. split; [exact R1|]. split; [by rewrite R2, Hrd, Ec, app_assoc|].
             exists A, B. split; [|exact R4]. rewrite <-R3, Eu. by rewrite app_assoc.
    - (* the last batch *)
      assert (Z.of_nat (length pend) - Z.of_nat (length ids) <= 0) as Ez by lia.
      set (m := (20 - length pend)%nat).
      assert (ids = pend ++ take m seen) as Ei.
      { unfold ids, BATCH. rewrite take_app_ge by lia. done. }
      assert (drop BATCH (pend ++ seen) = drop m seen) as Ed.
      { unfold BATCH. rewrite drop_app_ge by lia. done. }
      assert (∀ x, x ∈ take m seen → x ∈ seen) as Hts.
      { intros x Hx. rewrite <-(take_drop m seen). apply elem_of_app. by left. }
      assert (chosen1 = take (total - length ready) (filter (λ id, rdy id = true) pend)) as Ec.
      { unfold chosen1. rewrite Ei, list.filter_app, (filter_none _ (take m seen)), app_nil_r; [done|].
        intros x Hx%Hts. rewrite (Hseen x Hx). done. }
      rewrite <-Ec. rewrite (proj2 (Z.leb_le _ _) Ez).
      assert (∀ r : world * list (job M) * outcome unit, r = ((w', ready'), Done tt) →
        r.2 = Done tt ∧ map jid r.1.2 = map jid ready ++ chosen1 ∧
        ∃ A B, seen ++ filter (λ id, id ∉ chosen1) pend = A ++ B ∧ rev (qlist r.1.1 Queued) = B ++ A) as Hfin.
      { intros r ->. cbn [fst snd]. split; [done|]. split; [done|].
        exists (take m seen), (drop m seen ++ filter (λ id, id ∉ chosen1) pend). split.
        - by rewrite app_assoc, take_drop.
        - rewrite Hwt, Ed, Ei, list.filter_app, (filter_all _ (take m seen)); [by rewrite app_assoc|].
          intros x Hx Hin. rewrite Ec in Hin. apply in_take_filter in Hin as [Hin _].
          apply NoDup_app in Hnd as (_ & Hd & _). apply (Hd x Hin). by apply Hts. }
      destruct (total <=? length ready')%nat; by apply Hfin.
  Qed.

  (** Any waiting list: the oldest due ids start, in order; the order of the others is rotated. *)
  Lemma tick_rotates (rdy : string → bool) (s : sys) :
    all_at s → alive s = true → fits name (sw s) →
    (∀ id j, id ∈ qlist (sw s) Queued → stored (sw s) id = Some j → ∀ k, due j (clock k) ↔ rdy id = true) →
    let s' := (step s EvTick).1 in
    let chosen := take (free_slots name s) (filter (λ id, rdy id = true) (rev (qlist (sw s) Queued))) in
    map tid (tasks s') = map tid (tasks s) ++ chosen ∧
    ∃ A B, filter (λ id, id ∉ chosen) (rev (qlist (sw s) Queued)) = A ++ B ∧ rev (qlist (sw s') Queued) = B ++ A.
  Proof.
    intros Hall Ha Hf Hr. rewrite (step_tick prof sched name clock s Ha). cbv zeta.
    assert (free_slots name s = max_processing_jobs (cfg s) - length (qlist (sw s) Running))%nat as ->.
    { unfold free_slots. by rewrite Ha. }
    destruct s as [w c ts a rs]. cbn [sw cfg tasks runs alive] in *.
    set (chosen := take (max_processing_jobs c - length (qlist w Running)) _).
    unfold do_pick. destruct (Nat.leb_spec (max_processing_jobs c) (length (qlist w Running))) as [Hm|Hm].
    { assert (max_processing_jobs c - length (qlist w Running) = 0)%nat as E by lia.
      unfold chosen. rewrite E. cbn [fst snd map take tasks sw]. rewrite !app_nil_r. split; [done|].
      exists [], (rev (qlist w Queued)). split; [|by rewrite app_nil_r]. apply filter_all. set_solver. }
    assert (NoDup (rev (qlist w Queued))) as Hnd.
    { rewrite <-Permutation_rev. by apply (all_at_nodup name (Sys w c ts a rs)). }
    unfold fits in Hf.
    destruct (scan_loop_fifo rdy (S (length (qlist w Queued))) (max_processing_jobs c - length (qlist w Running))%nat
      [] (wrap32 (Z.of_nat (length (qlist w Queued)))) w (rev (qlist w Queued)) []) as (R1 & R2 & A & B & R3 & R4).
    - by rewrite app_nil_r.
    - rewrite rev_length. apply wrap32_id. lia.
    - by rewrite rev_length.
    - rewrite rev_length. lia.
    - by apply (all_at_keyed name (Sys w c ts a rs)).
    - by rewrite app_nil_r.
    - intros id _. apply not_elem_of_nil.
    - intros id Hin. rewrite app_nil_r in Hin. rewrite <-Permutation_rev in Hin.
      destruct (all_at_stored name (Sys w c ts a rs) id Hall Hin) as (j & Hj & _). exists j. split; [exact Hj|].
      intros k. specialize (Hr id j Hin Hj k). rewrite <-due_ready in Hr.
      destruct (is_ready j (clock k)), (rdy id); intuition.
    - intros id Hin. by apply elem_of_nil in Hin.
    - cbn. lia.
    - cbv zeta in R1, R2, R3, R4. cbn [length map app] in R2, R3. rewrite Nat.sub_0_r in R2, R3. fold chosen in R2, R3.
      destruct (scan_loop prof name clock _ _ [] _ w) as [[w' ready'] o] eqn:El. cbn [fst snd] in *. subst o.
      cbn [tasks sw]. rewrite map_app, (spawn_tids ready'), R2. split; [done|]. by exists A, B.
  Qed.

  Notation after := (after prof sched name clock).
  Lemma tick_rotates_after (rdy : string → bool) es :
    let s := after es in let s' := after (es ++ [EvTick]) in
    ok_hist prof sched name clock initial es → alive s = true →
    Z.of_nat (length (qlist (sw s) Queued)) <= i32_max →
    (∀ id j, id ∈ qlist (sw s) Queued → stored (sw s) id = Some j →
       ∀ k, due j (clock k) ↔ rdy id = true) →
    let started := take (free_slots name s) (filter (λ id, rdy id = true) (rev (qlist (sw s) Queued))) in
    map tid (tasks s') = map tid (tasks s) ++ started ∧
    ∃ A B, filter (λ id, id ∉ started) (rev (qlist (sw s) Queued)) = A ++ B ∧ rev (qlist (sw s') Queued) = B ++ A.
  Proof.
    intros s s' Hok Ha Hf Hr. unfold s', Spec.after. rewrite go_snoc. fold (after es). fold s.
    exact (tick_rotates rdy s (all_at_after prof sched name clock es Hok) Ha Hf Hr).
  Qed.
End order.
