(** Progress with any content of the storage. *)
From Verif Require Import RaceLoop FaultFacts CrashFacts.
From Verif Require Import Spec SpecAny JsonFacts BackendFacts WorldFacts MicroFacts LifeFacts HistFacts
  SubmitFacts LifeProps ListFacts ApiFacts PickFacts StarveFacts LiveFacts.

Lemma filter_le {A} (P Q : A → Prop) `{!∀ x, Decision (P x), !∀ x, Decision (Q x)} (l : list A) :
  (∀ x, P x → Q x) → (length (filter P l) <= length (filter Q l))%nat.
Proof.
  intros HP. induction l as [|x l IH]; [done|]. rewrite !filter_cons.
  destruct (decide (P x)), (decide (Q x)); cbn [length]; try lia. naive_solver.
Qed.

Section any.
  Context {M : Type} `{SM : Serde M} {SO : SerdeOk M}.
  Context (prof : profile).
  Context (sched : string → option (time → option time)).
  Context (name : string).
  Context (clock : nat → time).
  Notation h := (mem_h clock).
  Notation sys := (Sys.sys world M).
  Notation qlist := (qlist name).
  Notation stored := (@stored M SM).
  Notation step := (sys_step prof sched name h).
  Notation go := (sys_run prof sched name h).
  Notation free_slots := (free_slots name).
  Notation free_ticks := (free_ticks prof sched name clock).
  Notation arrivals := (arrivals prof sched name clock).
  Notation keyed := (keyed (M := M)).
  Notation left_ := (PickFacts.left_ (M := M) clock).
  Notation picked := (picked clock).
  Notation lost := (a_lost name).
  Notation waits := (a_waits name).

  (** *** The picking loop *)
  Lemma any_loop fuel total (ready : list (job M)) cursor w pend seen w0 :
    rev (qlist w Queued) = pend ++ seen → cursor = Z.of_nat (length pend) →
    Z.of_nat (length pend) <= i32_max → (length pend < fuel)%nat →
    keyed w0 → keyed w → (reads w0 <= reads w)%nat →
    rev (qlist w0 Queued) ≡ₚ (pend ++ seen) ++ map jid ready →
    qlist w Running = rev (map jid ready) ++ qlist w0 Running →
    (∀ id, id ∉ map jid ready → stored w id = stored w0 id) →
    (length ready < total)%nat →
    (∀ j', j' ∈ ready → picked w0 (reads w) j') →
    (∀ id, id ∈ seen → left_ w0 (reads w) id ∨ id ∈ map jid ready) →
    let r := scan_loop prof name clock fuel total ready cursor w in
    r.2 = Done tt ∧ (reads w0 <= reads r.1.1)%nat ∧ keyed r.1.1 ∧
    rev (qlist w0 Queued) ≡ₚ rev (qlist r.1.1 Queued) ++ map jid r.1.2 ∧
    qlist r.1.1 Running = rev (map jid r.1.2) ++ qlist w0 Running ∧
    (∀ id, id ∉ map jid r.1.2 → stored r.1.1 id = stored w0 id) ∧
    (∀ j', j' ∈ r.1.2 → picked w0 (reads r.1.1) j') ∧
    (length r.1.2 = total ∨ ∀ id, id ∈ qlist r.1.1 Queued → left_ w0 (reads r.1.1) id ∨ id ∈ map jid r.1.2).
  Proof.
    revert ready cursor w pend seen. induction fuel as [|fuel IH]; intros ready cursor w pend seen; [lia|].
    intros Hq -> Hmax Hfuel Hk0 Hk Hr Hperm Hrun Hst Hlen Hpick Hleft.
    cbn [scan_loop]. rewrite Hq. set (ids := take BATCH (pend ++ seen)).
    assert (length ids = Nat.min 20 (length pend + length seen)) as Hids.
    { unfold ids. by rewrite take_length, app_length. }
    assert (i32_norm prof (Z.of_nat (length pend) - Z.of_nat (length ids)) =
      Some (Z.of_nat (length pend) - Z.of_nat (length ids))) as ->.
    { unfold i32_norm, in_i32. rewrite Hids. unfold i32_min, i32_max in *.
      rewrite (proj2 (Z.leb_le _ _)) by lia. rewrite (proj2 (Z.leb_le _ _)) by lia. done. }
    assert (rev (qlist w Queued) = ids ++ drop BATCH (pend ++ seen)) as Hq'.
    { rewrite Hq. unfold ids. by rewrite take_drop. }
    destruct (scan_batch_spec sched name clock total ids (drop BATCH (pend ++ seen)) ready w Hq' Hk)
      as (kept & new & H1 & H2 & H3 & H4 & H5 & H6 & H7 & H8 & H9 & H10 & H11 & H12 & H13).
    destruct (scan_batch name clock total ids ready w) as [w' ready'] eqn:Esb. cbn [fst snd] in *. subst ready'.
    assert (pend ++ seen ≡ₚ (drop BATCH (pend ++ seen) ++ kept) ++ map jid new) as Hps.
    { rewrite <-(take_drop BATCH (pend ++ seen)) at 1. fold ids. rewrite H5. solve_Permutation. }
    assert (rev (qlist w0 Queued) ≡ₚ rev (qlist w' Queued) ++ map jid (ready ++ new)) as Hperm'.
    { rewrite H2, Hperm, map_app. etransitivity; [apply Permutation_app_tail, Hps|]. solve_Permutation. }
    assert (qlist w' Running = rev (map jid (ready ++ new)) ++ qlist w0 Running) as Hrun'.
    { rewrite H3, Hrun, map_app, rev_app_distr. by rewrite app_assoc. }
    assert (∀ id, id ∉ map jid (ready ++ new) → stored w' id = stored w0 id) as Hst'.
    { intros k Hkk. rewrite map_app in Hkk. apply not_elem_of_app in Hkk as [Hn1 Hn2]. rewrite H8, Hst by done. done. }
    assert (∀ j', j' ∈ ready ++ new → picked w0 (reads w') j') as Hpick'.
    { intros j' Hj'. apply elem_of_app in Hj' as [Hj'|Hj'].
      - eapply (picked_later clock w0 w0); [done|exact H6|done|by apply Hpick].
      - eapply (picked_later clock w0 w); [done|apply le_n| |by apply H12]. apply Hst.
        intros Hin. eapply H11; [|exact Hin]. by apply elem_of_list_fmap_1. }
    assert (∀ id, id ∈ seen → left_ w0 (reads w') id ∨ id ∈ map jid (ready ++ new)) as Hleft'.
    { intros id Hin. destruct (Hleft id Hin) as [Hl|Hl].
      - left. eapply (left_later clock w0 w0); [done|exact H6|done|done].
      - right. rewrite map_app. apply elem_of_app. by left. }
    assert ((length (ready ++ new) < total)%nat → ∀ id, id ∈ kept →
      left_ w0 (reads w') id ∨ id ∈ map jid (ready ++ new)) as Hkept.
    { intros Hroom id Hin. destruct (decide (id ∈ map jid (ready ++ new))) as [Hy|Hn]; [by right|].
      destruct (H13 id Hin) as [Hl|[Hl|Hl]]; [|lia|done]. left.
      eapply (left_later clock w0 w); [done|apply le_n| |exact Hl]. apply Hst.
      rewrite map_app in Hn. by apply not_elem_of_app in Hn as [? _]. }
    destruct (total <=? length (ready ++ new))%nat eqn:Et.
    { apply Nat.leb_le in Et. cbn [fst snd]. split; [done|]. split; [lia|].
      split; [done|]. split; [done|]. split; [done|]. split; [done|]. split; [done|]. left. lia. }
    apply Nat.leb_gt in Et. specialize (Hkept Et).
    destruct (decide (20 <= length pend)%nat) as [Hbig|Hsmall].
    - assert (drop BATCH (pend ++ seen) = drop BATCH pend ++ seen) as Hdrop.
      { by rewrite drop_app_le by (unfold BATCH; lia). }
      assert (length (drop BATCH pend) = (length pend - 20)%nat) as Hdl by by rewrite drop_length.
      destruct (Z.of_nat (length pend) - Z.of_nat (length ids) <=? 0) eqn:Ec.
      + apply Z.leb_le in Ec. cbn [fst snd]. split; [done|]. split; [lia|].
        split; [done|]. split; [done|]. split; [done|]. split; [done|]. split; [done|].
        right. intros id Hin. apply elem_of_list_In, in_rev, elem_of_list_In in Hin. rewrite H2, Hdrop in Hin.
        assert (drop BATCH pend = []) as E by (apply nil_length_inv; lia). rewrite E in Hin. cbn in Hin.
        apply elem_of_app in Hin as [Hin|Hin]; [by apply Hleft'|by apply Hkept].
      + apply Z.leb_gt in Ec.
        apply (IH (ready ++ new) _ w' (drop BATCH pend) (seen ++ kept)); try done.
        * rewrite H2, Hdrop. by rewrite app_assoc.
        * lia.
        * lia.
        * lia.
        * lia.
        * rewrite app_assoc, <-Hdrop, <-H2. done.
        * intros id Hin. apply elem_of_app in Hin as [Hin|Hin]; [by apply Hleft'|by apply Hkept].
    - assert (Z.of_nat (length pend) - Z.of_nat (length ids) <= 0) as Ec by lia.
      rewrite (proj2 (Z.leb_le _ _) Ec). cbn [fst snd]. split; [done|]. split; [lia|].
      split; [done|]. split; [done|]. split; [done|]. split; [done|]. split; [done|].
      right. intros id Hin. apply elem_of_list_In, in_rev, elem_of_list_In in Hin. rewrite H2 in Hin.
      apply elem_of_app in Hin as [Hin|Hin]; [|by apply Hkept].
      apply Hleft'.
      rewrite drop_app_ge in Hin by (unfold BATCH; lia). rewrite <-(take_drop (BATCH - length pend) seen). apply elem_of_app. by right.
  Qed.

  Lemma any_tick (s : sys) :
    alive s = true → keyed (sw s) → fits name (sw s) →
    let s' := (step s EvTick).1 in
    ∃ new, cfg s' = cfg s ∧ runs s' = runs s ∧ tasks s' = tasks s ++ map spawn new ∧
    (reads (sw s) <= reads (sw s'))%nat ∧ keyed (sw s') ∧
    qlist (sw s) Queued ≡ₚ qlist (sw s') Queued ++ map jid new ∧
    qlist (sw s') Running = rev (map jid new) ++ qlist (sw s) Running ∧
    (∀ id, id ∉ map jid new → stored (sw s') id = stored (sw s) id) ∧
    (∀ j', j' ∈ new → picked (sw s) (reads (sw s')) j') ∧
    (length new = free_slots s ∨
     ∀ id, id ∈ qlist (sw s') Queued → left_ (sw s) (reads (sw s')) id ∨ id ∈ map jid new).
  Proof.
    intros Ha Hk Hf s'.
    destruct (Nat.leb_spec (max_processing_jobs (cfg s)) (length (qlist (sw s) Running))) as [Hm|Hm].
    - exists []. unfold s'. rewrite tick_full by done. cbn [map rev app length]. rewrite !app_nil_r.
      unfold Spec.free_slots. rewrite Ha. split; [done|]. split; [done|]. split; [done|]. split; [lia|]. split; [done|].
      split; [done|]. split; [done|]. split; [done|]. split; [set_solver|]. left. lia.
    - unfold s'. rewrite (step_tick prof sched name clock s Ha). unfold do_pick.
      rewrite (proj2 (Nat.leb_gt _ _) Hm). cbv zeta.
      destruct (any_loop (S (length (qlist (sw s) Queued))) (max_processing_jobs (cfg s) - length (qlist (sw s) Running)) []
        (wrap32 (Z.of_nat (length (qlist (sw s) Queued)))) (sw s) (rev (qlist (sw s) Queued)) [] (sw s))
        as (H1 & H2 & H3 & H4 & H5 & H6 & H7 & H8); try done.
      + by rewrite app_nil_r.
      + rewrite rev_length. apply wrap32_id. unfold fits in Hf. lia.
      + by rewrite rev_length.
      + rewrite rev_length. lia.
      + by rewrite !app_nil_r.
      + cbn. lia.
      + set_solver.
      + set_solver.
      + destruct (scan_loop _ _ _ _ _ _ _ _) as [[w' new] o]. cbn [fst snd] in *. rewrite H1. cbn [sw cfg runs tasks].
        exists new. unfold Spec.free_slots. rewrite Ha.
        split; [done|]. split; [done|]. split; [done|]. split; [done|]. split; [done|].
        split; [etransitivity; [apply Permutation_rev|]; etransitivity; [exact H4|];
                by apply Permutation_app_tail, Permutation_sym, Permutation_rev|].
        split; [done|]. split; [done|]. split; [done|]. done.
  Qed.

  (** *** Changes of the records and lists that concern one id *)
  Definition only (k : string) (w w' : world) : Prop :=
    (keyed w → keyed w') ∧ (∀ id, id ≠ k → stored w' id = stored w id) ∧
    (∀ id, id ≠ k → id ∈ qlist w Queued → id ∈ qlist w' Queued).
  Lemma only_refl k w : only k w w.
  Proof. done. Qed.
  Lemma only_trans k w1 w2 w3 : only k w1 w2 → only k w2 w3 → only k w1 w3.
  Proof. intros (A1 & A2 & A3) (B1 & B2 & B3). split; [auto|]. split; [|auto]. intros id Hn. by rewrite B2, A2. Qed.
  Lemma only_enqueue w (j : job M) : only (jid j) w (do_enqueue name clock w j).
  Proof.
    split; [|split].
    - intros Hk id x. rewrite stored_do_enqueue. destruct (bool_decide_reflect (id = jid j)) as [->|]; [by intros [= <-]|apply Hk].
    - intros id Hn. by rewrite stored_do_enqueue, bool_decide_false.
    - intros id Hn. rewrite qlist_do_enqueue, bool_decide_true by done. set_solver.
  Qed.
  Lemma only_re_enqueue w (j : job M) : only (jid j) w (do_re_enqueue name clock w j).
  Proof.
    split; [|split].
    - intros Hk id x. rewrite stored_do_re_enqueue. destruct (bool_decide_reflect (id = jid j)) as [->|]; [by intros [= <-]|apply Hk].
    - intros id Hn. by rewrite stored_do_re_enqueue, bool_decide_false.
    - intros id Hn Hin. rewrite qlist_do_re_enqueue. cbv zeta. rewrite bool_decide_true by done. right.
      destruct (bool_decide _); [|done]. by apply elem_of_list_filter.
  Qed.
  Lemma only_run w (j : job M) c : only (jid j) w (do_run name clock w j c) ∧ qlist (do_run name clock w j c) Running = qlist w Running.
  Proof.
    unfold do_run. destruct (stored w (jid j)) as [ex|]; [|split; [apply only_enqueue|by rewrite qlist_do_enqueue]].
    cbv zeta. set (w1 := if override_data c && negb (is_running ex) then w_put w j else w).
    assert (only (jid j) w w1 ∧ ∀ s, qlist w1 s = qlist w s) as [H1 H2].
    { unfold w1. destruct (_ && _); [|done]. split; [|intros s; apply qlist_put]. split; [|split].
      - intros Hk id x. rewrite stored_put. destruct (bool_decide_reflect (id = jid j)) as [->|]; [by intros [= <-]|apply Hk].
      - intros id Hn. by rewrite stored_put, bool_decide_false.
      - intros id Hn. by rewrite qlist_put. }
    destruct (re_run c && is_done ex); [|split; [exact H1|apply H2]]. split; [eapply only_trans; [exact H1|apply only_enqueue]|].
    rewrite qlist_do_enqueue, bool_decide_false by done. apply H2.
  Qed.
  Lemma only_cancel w id : keyed w → only id w (do_cancel (M := M) name clock w id) ∧
    qlist (do_cancel (M := M) name clock w id) Running = qlist w Running.
  Proof.
    intros Hk. unfold do_cancel. destruct (stored w id) as [j|] eqn:Es; [|done]. destruct (is_queued j); [|done].
    pose proof (Hk _ _ Es) as Hid. split; [split; [|split]|].
    - intros _ k x. rewrite stored_rem, stored_save, stored_tick. cbn [jid can set_ctx].
      change (jid (can j (now_ms clock w))) with (jid j).
      destruct (bool_decide_reflect (k = jid j)) as [->|]; [by intros [= <-]|apply Hk].
    - intros k Hn. rewrite stored_rem, stored_save, stored_tick. change (jid (can j (now_ms clock w))) with (jid j).
      by rewrite bool_decide_false by congruence.
    - intros k Hn Hin. rewrite qlist_rem, bool_decide_true by done. apply elem_of_list_filter.
      by rewrite qlist_save, qlist_tick.
    - rewrite qlist_rem, bool_decide_false by done. by rewrite qlist_save, qlist_tick.
  Qed.
  Lemma only_retry w id : keyed w → only id w (do_retry (M := M) name clock w id) ∧
    qlist (do_retry (M := M) name clock w id) Running = qlist w Running.
  Proof.
    intros Hk. unfold do_retry. destruct (stored w id) as [j|] eqn:Es; [|done]. destruct (is_done j) eqn:Ed; [|done].
    pose proof (Hk _ _ Es) as <-. split; [apply only_re_enqueue|].
    rewrite qlist_do_re_enqueue. cbv zeta. rewrite bool_decide_false by done.
    rewrite bool_decide_false; [done|]. intros E. unfold is_done in Ed. by rewrite <-E in Ed.
  Qed.
  Lemma only_verdict w (v : verdict) id :
    match v with
    | VRequeue nj => jid nj = id ∧ jstatus (ctx nj) = Running
    | VFailed nj | VFinished nj => jid nj = id
    | VPanic => False
    end →
    only id w (do_verdict name clock w v) ∧
    qlist (do_verdict name clock w v) Running = filter (λ y, y ≠ id) (qlist w Running).
  Proof.
    destruct v as [nj|nj|nj|]; [intros [<- Hst]|intros <-|intros <-|done]; cbn [do_verdict].
    - split; [apply only_re_enqueue|]. rewrite qlist_do_re_enqueue. cbv zeta. rewrite bool_decide_false, Hst by done.
      by rewrite bool_decide_true.
    - split; [split; [|split]|by rewrite qlist_do_fail].
      + intros Hk id x. rewrite stored_do_fail. destruct (bool_decide_reflect (id = jid nj)) as [->|]; [by intros [= <-]|apply Hk].
      + intros id Hn. by rewrite stored_do_fail, bool_decide_false.
      + intros id Hn. by rewrite qlist_do_fail.
    - split; [split; [|split]|by rewrite qlist_do_finish].
      + intros Hk id x. rewrite stored_do_finish. destruct (bool_decide_reflect (id = jid nj)) as [->|]; [by intros [= <-]|apply Hk].
      + intros id Hn. by rewrite stored_do_finish, bool_decide_false.
      + intros id Hn. by rewrite qlist_do_finish.
  Qed.

  (** *** One step *)
  Definition after_step (s : sys) (e : event M) (s' : sys) : Prop :=
    keyed (sw s') ∧ (∀ t, t ∈ tasks s' → sound_task t) ∧ (length (lost s') <= length (lost s))%nat ∧
    ∀ id j, waits s id j → ¬ revives id e → e ≠ EvCancel id →
      waits s' id j ∨ (e = EvTick ∧ ∃ j', jid j' = id ∧ spawn j' ∈ tasks s').
  Lemma same_tasks (s s' : sys) e k :
    keyed (sw s) → (∀ t, t ∈ tasks s → sound_task t) → tasks s' = tasks s →
    only k (sw s) (sw s') → qlist (sw s') Running = qlist (sw s) Running →
    (∀ id, ¬ revives id e → e ≠ EvCancel id → id ≠ k) → after_step s e s'.
  Proof.
    intros Hk Ht Et (H1 & H2 & H3) Hr Hd. split; [auto|]. split; [by rewrite Et|].
    split; [unfold a_lost; by rewrite Et, Hr|].
    intros id j (W1 & W2 & W3) Hn1 Hn2. left. specialize (Hd id Hn1 Hn2).
    split; [auto|]. split; [by rewrite H2|]. by rewrite Et.
  Qed.
  Lemma tid_insert (ts : list (task M)) i t t' : ts !! i = Some t → tid t' = tid t → map tid (<[i := t']> ts) = map tid ts.
  Proof.
    intros Hi E. change (map tid (<[i := t']> ts)) with (tid <$> <[i := t']> ts).
    rewrite list_fmap_insert, E. apply list_insert_id. rewrite list_lookup_fmap, Hi. done.
  Qed.
  Lemma in_insert (ts : list (task M)) i t t' : t ∈ <[i := t']> ts → t = t' ∨ t ∈ ts.
  Proof.
    intros H. apply elem_of_list_lookup in H as [k Hk]. apply list_lookup_insert_Some in Hk as [(_ & -> & _)|[_ Hk]]; [by left|].
    right. by eapply elem_of_list_lookup_2.
  Qed.
  Lemma in_delete (ts : list (task M)) i t : t ∈ delete i ts → t ∈ ts.
  Proof.
    intros H. rewrite delete_take_drop in H. apply elem_of_app in H as [H|H].
    - eapply elem_of_submseteq; [exact H|]. apply sublist_submseteq, sublist_take.
    - eapply elem_of_submseteq; [exact H|]. apply sublist_submseteq, sublist_drop.
  Qed.
  Lemma any_step (s : sys) e :
    calm e → alive s = true → alive (step s e).1 = true → keyed (sw s) → fits name (sw s) →
    (∀ t, t ∈ tasks s → sound_task t) → after_step s e (step s e).1.
  Proof.
    intros Hc Ha Ha' Hk Hf Ht. destruct e as [j ec|k|k|k|c'| |i u| | |e' n|]; try done.
    - rewrite step_enqueue by done. cbn [fst]. destruct (only_run (sw s) j ec). apply (same_tasks _ _ _ (jid j)); try done.
    - rewrite step_cancel by done. cbn [fst]. destruct (only_cancel (sw s) k Hk). apply (same_tasks _ _ _ k); try done.
      intros id _ Hn ->. by apply Hn.
    - rewrite step_get. cbn [fst]. split; [done|]. split; [done|]. split; [done|]. by left.
    - rewrite step_retry by done. cbn [fst]. destruct (only_retry (sw s) k Hk). apply (same_tasks _ _ _ k); try done.
    - rewrite step_config by done. split; [done|]. split; [done|]. split; [done|]. by left.
    - destruct (any_tick s Ha Hk Hf) as (new & G1 & G2 & G3 & G4 & G5 & G6 & G7 & G8 & G9 & G10).
      split; [done|]. split; [|split].
      + intros t Hin. rewrite G3 in Hin. apply elem_of_app in Hin as [Hin|Hin]; [by apply Ht|].
        apply elem_of_list_fmap in Hin as (j' & -> & Hj'). destruct (G9 j' Hj') as (j0 & k & _ & E & _). by rewrite E.
      + unfold a_lost. rewrite G3, G7, list.filter_app, map_app, app_length.
        assert (∀ l, (∀ x, x ∈ l → x ∈ map jid new) →
          filter (λ id, id ∉ map tid (tasks s) ++ map tid (map spawn new)) l = []) as Hno.
        { induction l as [|x l IH]; intros Hl; [done|]. rewrite filter_cons_False.
          - apply IH. intros y Hy. apply Hl. by right.
          - intros Hx. apply Hx. apply elem_of_app. right. rewrite map_map. apply Hl. by left. }
        rewrite Hno by (intros x; by rewrite <-Permutation_rev). cbn [length Nat.add].
        apply filter_le. intros x Hx Hy. apply Hx, elem_of_app. by left.
      + intros id j (W1 & W2 & W3) _ _. destruct (decide (id ∈ map jid new)) as [Hy|Hn].
        * right. split; [done|]. apply elem_of_list_fmap in Hy as (j' & -> & Hj'). exists j'. split; [done|].
          rewrite G3. apply elem_of_app. right. by apply elem_of_list_fmap_1.
        * left. split; [|split].
          -- rewrite G6 in W1. apply elem_of_app in W1 as [?|?]; done.
          -- by rewrite G8.
          -- rewrite G3, map_app, map_map. intros [H|H]%elem_of_app; [done|]. apply Hn. exact H.
    - destruct (tasks s !! i) as [t|] eqn:Hi.
      2:{ unfold sys_step. rewrite Ha. unfold commit. cbn [ev_prog]. rewrite Hi. cbn [run fst].
          split; [done|]. split; [done|]. split; [done|]. by left. }
      assert (sound_task t) as [Hid Hst] by (eapply Ht, elem_of_list_lookup_2, Hi).
      assert (is_cancelled (t_job t) = false) as Hcc by (unfold is_cancelled; by rewrite Hst).
      rewrite (step_task prof sched name clock s i t u Ha Hi Hcc) in Ha' |- *.
      assert (∀ w t' rs, tid t' = tid t → sound_task t' → only (tid t) (sw s) w → (∀ x, stored w x = stored (sw s) x) →
        (∀ x, qlist w x = qlist (sw s) x) →
        after_step s (EvTask i u) (Sys w (cfg s) (<[i := t']> (tasks s)) true rs)) as Hsame.
      { intros w t' rs E1 E2 E3 E4 E5. split; [cbn [sw]; by apply E3|]. split; [|split].
        - cbn [tasks]. intros x Hx. destruct (in_insert _ _ _ _ Hx) as [->|]; [done|by apply Ht].
        - unfold a_lost. cbn [tasks sw]. by rewrite (tid_insert _ _ t t'), E5.
        - intros id j (W1 & W2 & W3) _ _. left. split; [|split]; cbn [sw tasks].
          + by rewrite E5.
          + by rewrite E4.
          + by rewrite (tid_insert _ _ t t'). }
      destruct (t_phase t) eqn:Ep.
      + by apply Hsame.
      + by apply Hsame.
      + by apply Hsame.
      + cbv zeta in *. unfold do_tail in *.
        destruct (judge prof sched clock (reads (sw s)) (t_job t) u) as [k1 v] eqn:Ej. cbn [fst snd] in *.
        apply judge_spec in Ej as [_ Hv].
        assert (only (tid t) (sw s) (do_verdict name clock (w_reads (sw s) k1) v) ∧
          (v = VPanic ∨ qlist (do_verdict name clock (w_reads (sw s) k1) v) Running =
            filter (λ y, y ≠ tid t) (qlist (sw s) Running))) as [[H1 [H2 H3]] H4].
        { destruct (match v with VPanic => true | _ => false end) eqn:Evp; [destruct v; try done; (split; (done || by left))|].
          destruct (only_verdict (w_reads (sw s) k1) v (tid t)) as [H1 H2].
          - destruct v; try done; destruct Hv as [Hv1 Hv2]; unfold tid; rewrite <-Hid; naive_solver congruence.
          - split; [exact H1|by right]. }
        destruct v as [nj|nj|nj|]; [..|done]; (destruct H4 as [H4|H4]; [done|]).
        all: split; [cbn [sw]; by apply H1|split; [|split]].
        all: try (intros x Hx; apply Ht; by eapply in_delete; exact Hx).
        all: try (unfold a_lost; cbn [sw tasks]; rewrite H4, list_filter_filter; apply filter_le;
          intros y [Hy1 Hy2]; intros Hin; apply Hy1; rewrite <-(take_drop_middle (tasks s) i t Hi) in Hin;
          rewrite map_app in Hin; cbn [map] in Hin; rewrite delete_take_drop, map_app; set_solver).
        all: intros id j (W1 & W2 & W3) _ _; left.
        all: assert (id ≠ tid t) as Hne by (intros ->; apply W3, elem_of_list_fmap; eexists; split; [done|by eapply elem_of_list_lookup_2]).
        all: split; [cbn [sw]; by apply H3|split; [cbn [sw]; by rewrite H2|]].
        all: cbn [tasks]; intros Hin; apply W3; apply elem_of_list_fmap in Hin as (x & -> & Hx);
          apply elem_of_list_fmap; exists x; split; [done|by eapply in_delete].
  Qed.

  (** *** Endless executions *)
  Section run.
    Context (s0 : sys) (ev : nat → event M).
    Notation s n := (a_moment prof sched name clock s0 ev n).
    Context (Hs0 : sound s0).
    Context (Hh : a_healthy prof sched name clock s0 ev).
    Context (Hticks : ticking ev).
    Context (Hpolls : a_polling prof sched name clock s0 ev).

    Lemma a_S n : s (S n) = (step (s n) (ev n)).1.
    Proof. unfold a_moment. rewrite seq_S, map_app. cbn [map]. unfold sys_run. by rewrite fold_left_app. Qed.
    Lemma a_add n m : s (n + m)%nat = go (s n) (map ev (seq n m)).
    Proof. unfold a_moment. rewrite seq_app, map_app. unfold sys_run. by rewrite fold_left_app. Qed.
    Lemma a_calm n : calm (ev n). Proof. apply Hh. Qed.
    Lemma a_alive n : alive (s n) = true. Proof. apply Hh. Qed.
    Lemma a_alive' n : alive (step (s n) (ev n)).1 = true. Proof. rewrite <-a_S. apply Hh. Qed.
    Lemma a_fits n : fits name (sw (s n)). Proof. apply Hh. Qed.
    Lemma a_inv n : keyed (sw (s n)) ∧ (∀ t, t ∈ tasks (s n) → sound_task t) ∧ (length (lost (s n)) <= length (lost s0))%nat.
    Proof.
      induction n as [|n (I1 & I2 & I3)]; [destruct Hs0 as (_ & H1 & H2); done|].
      destruct (any_step (s n) (ev n)) as (H1 & H2 & H3 & _); try done; [apply a_calm|apply a_alive|apply a_alive'|apply a_fits|].
      rewrite a_S. split; [done|]. split; [done|]. lia.
    Qed.
    Lemma a_go n : after_step (s n) (ev n) (s (S n)).
    Proof.
      rewrite a_S. destruct (a_inv n) as (I1 & I2 & _).
      apply any_step; [apply a_calm|apply a_alive|apply a_alive'|done|apply a_fits|done].
    Qed.

    Definition a_opens (k : nat) : Prop := ev k = EvTick ∧ (0 < free_slots (s k))%nat.
    Lemma a_work_until n d : (∃ k, (n <= k < n + d)%nat ∧ a_opens k) ∨ (work (tasks (s (n + d))) <= work (tasks (s n)))%nat.
    Proof.
      induction d as [|d [(k&Hk&Ho)|IH]].
      - right. by rewrite Nat.add_0_r.
      - left. exists k. split; [lia|done].
      - destruct (match ev (n + d)%nat with EvTick => true | _ => false end) eqn:Et.
        + destruct (decide (0 < free_slots (s (n + d)))%nat) as [Hf|Hf].
          * left. exists (n + d)%nat. split; [lia|]. split; [|done]. by destruct (ev (n + d)%nat).
          * right. rewrite Nat.add_succ_r, a_S. etrans; [apply (work_step prof sched name clock)|done];
              [apply a_calm|apply a_alive|apply a_alive'|by intros [_ ?]].
        + right. rewrite Nat.add_succ_r, a_S. etrans; [apply (work_step prof sched name clock)|done];
            [apply a_calm|apply a_alive|apply a_alive'|]. intros [E _]. by rewrite E in Et.
    Qed.
    Lemma a_opens_again n : ∃ m, (n <= m)%nat ∧ a_opens m.
    Proof.
      remember (work (tasks (s n))) as x eqn:Ex. revert n Ex.
      induction (lt_wf x) as [x _ IH]. intros n ->.
      destruct (tasks (s n)) as [|t ts] eqn:Et.
      - destruct (Hticks n) as (m & Hm & Hev).
        destruct (a_work_until n (m - n)) as [(k&Hk&Ho)|Hw]; [exists k; split; [lia|done]|].
        replace (n + (m - n))%nat with m in Hw by lia.
        exists m. split; [done|]. split; [done|].
        assert (tasks (s m) = []) as Ht. { apply work_nil. rewrite Et in Hw. change (work []) with 0%nat in Hw. lia. }
        destruct (a_inv m) as (_ & _ & Hl). destruct (Hh m) as (_&_&Hmax&_).
        assert (lost (s m) = qlist (sw (s m)) Running) as El.
        { unfold a_lost. rewrite Ht. cbn [map]. induction (qlist (sw (s m)) Running) as [|y l IHl]; [done|].
          rewrite filter_cons_True by (apply not_elem_of_nil). by rewrite IHl. }
        rewrite El in Hl. unfold Spec.free_slots. rewrite a_alive. lia.
      - destruct (Hpolls n t) as (m & i & u & Hm & Hev & Hi); [rewrite Et; left|].
        destruct (a_work_until n (m - n)) as [(k&Hk&Ho)|Hw]; [exists k; split; [lia|done]|].
        replace (n + (m - n))%nat with m in Hw by lia.
        pose proof (a_alive' m) as Ha'. rewrite Hev in Ha'.
        pose proof (work_poll prof sched name clock (s m) i u t (a_alive m) Hi Ha') as Hp.
        destruct (IH (work (tasks (s (S m))))) with (n := S m) as (k & Hk & Ho); [|done|].
        + rewrite a_S, Hev. rewrite <-Et. lia.
        + exists k. split; [lia|done].
    Qed.
    Lemma a_many_opens n K : ∃ d, (K <= free_ticks (s n) (map ev (seq n d)))%nat.
    Proof.
      induction K as [|K [d IH]]; [exists 0%nat; lia|].
      destruct (a_opens_again (n + d)) as (m & Hm & Ho1 & Ho2).
      exists (S (m - n)). rewrite seq_S, map_app, (free_ticks_app prof sched name clock). cbn [map Spec.free_ticks].
      rewrite <-a_add. replace (n + (m - n))%nat with m by lia. rewrite Ho1.
      replace (m - n)%nat with (d + (m - n - d))%nat by lia.
      rewrite seq_app, map_app, (free_ticks_app prof sched name clock). lia.
    Qed.

    Lemma a_runs_of_le id n m : (n <= m)%nat → (length (runs_of id (s n)) <= length (runs_of id (s m)))%nat.
    Proof.
      intros H. replace m with (n + (m - n))%nat by lia. induction (m - n)%nat as [|d IH]; [by rewrite Nat.add_0_r|].
      etrans; [exact IH|]. rewrite Nat.add_succ_r, a_S.
      destruct (runs_step prof sched name clock (s (n + d)%nat) (ev (n + d)%nat)) as [l E]; [apply a_calm|apply a_alive|apply a_alive'|].
      unfold runs_of. rewrite E, list.filter_app, app_length. lia.
    Qed.
    Lemma a_poll n t : t ∈ tasks (s n) →
      ∃ m u, (n <= m)%nat ∧ runs (s (S m)) = runs (s m) ++ started t ∧
        match next t u with Some t' => t' ∈ tasks (s (S m)) | None => True end.
    Proof.
      intros Ht. destruct (Hpolls n t Ht) as (m & i & u & Hm & Hev & Hi).
      pose proof (a_alive' m) as Ha'. rewrite Hev in Ha'.
      destruct (step_poll prof sched name clock (s m) i u t (a_alive m) Hi Ha') as [H1 H2].
      exists m, u. split; [done|]. rewrite a_S, Hev. split; [done|].
      destruct (next t u) as [t'|]; [|done].
      rewrite H1. apply elem_of_list_lookup. exists i. apply list_lookup_insert. by eapply lookup_lt_Some.
    Qed.
    Lemma a_executes n (j' : job M) : spawn j' ∈ tasks (s n) →
      ∃ m, (n <= m)%nat ∧ (length (runs_of (jid j') (s n)) < length (runs_of (jid j') (s m)))%nat.
    Proof.
      intros Ht. destruct (a_inv n) as (_ & I2 & _). destruct (I2 _ Ht) as [_ Hst].
      destruct (a_poll n _ Ht) as (m1 & u1 & Hm1 & Hr1 & H1). unfold next in H1. cbn [t_phase spawn t_job] in H1, Hst.
      assert (is_cancelled j' = false) as Hc by (unfold is_cancelled; by rewrite Hst).
      rewrite Hc in H1. destruct (a_poll _ _ H1) as (m2 & u2 & Hm2 & Hr2 & H2).
      exists (S m2). split; [lia|]. pose proof (a_runs_of_le (jid j') n m2 ltac:(lia)) as Hle.
      unfold runs_of in *. rewrite Hr2, list.filter_app, app_length. unfold started. cbn [t_phase t_job].
      rewrite filter_cons_True by done. cbn [length]. lia.
    Qed.
    Lemma a_reads_le n m : (n <= m)%nat → (reads (sw (s n)) <= reads (sw (s m)))%nat.
    Proof.
      intros H. replace m with (n + (m - n))%nat by lia. induction (m - n)%nat as [|d IH]; [by rewrite Nat.add_0_r|].
      etrans; [exact IH|]. rewrite Nat.add_succ_r, a_S. apply rd_step.
    Qed.

    Section waiting.
      Context (n0 : nat) (id : string) (j : job M).
      Context (Hw : waits (s n0) id j).
      Context (Hd : ∀ n, (n0 <= n)%nat → ¬ revives id (ev n) ∧ ev n ≠ EvCancel id).

      Definition taken k : Prop := (n0 <= k)%nat ∧ ∃ j', jid j' = id ∧ spawn j' ∈ tasks (s (S k)).
      Lemma a_until d : waits (s (n0 + d)%nat) id j ∨ ∃ k, (k < n0 + d)%nat ∧ taken k.
      Proof.
        induction d as [|d [IH|(k&Hk&H)]].
        - left. by rewrite Nat.add_0_r.
        - rewrite Nat.add_succ_r. destruct (Hd (n0 + d)%nat ltac:(lia)) as [D1 D2].
          destruct (a_go (n0 + d)%nat) as (_ & _ & _ & Hg).
          destruct (Hg id j IH D1 D2) as [H|(_ & H)]; [by left|].
          right. exists (n0 + d)%nat. split; [lia|]. split; [lia|done].
        - right. exists k. split; [lia|done].
      Qed.
      (** A tick with a free slot, while the id waits and is not picked. *)
      Lemma a_open_tick k : (n0 <= k)%nat → a_opens k → waits (s k) id j → waits (s (S k)) id j →
        (reads (sw (s k)) < reads (sw (s (S k))))%nat ∧
        ((∀ r, (reads (sw (s k)) <= r)%nat → due j (clock r)) →
         (length (qlist (sw (s (S k))) Queued) < length (qlist (sw (s k)) Queued))%nat).
      Proof.
        intros Hk [Ho Hf] W W'. destruct (a_inv k) as (I1 & _ & _).
        destruct (any_tick (s k) (a_alive k) I1 (a_fits k)) as (new & G1 & G2 & G3 & G4 & G5 & G6 & G7 & G8 & G9 & G10).
        rewrite <-Ho, <-a_S in *.
        assert (id ∉ map jid new) as Hni.
        { destruct W' as (_ & _ & H). rewrite G3, map_app, map_map in H. intros Hin. apply H, elem_of_app. by right. }
        split.
        - destruct new as [|j' new].
          + destruct G10 as [G|G]; [cbn [length] in G; lia|]. destruct W' as (W1 & _). destruct (G id W1) as [[H|H]|H]; [| |done].
            * destruct W as (_ & H' & _). congruence.
            * destruct H as (j1 & r & _ & Hr & _). lia.
          + destruct (G9 j' ltac:(left)) as (j1 & r & _ & _ & Hr & Hr' & _). lia.
        - intros Hdue. apply Permutation_length in G6. rewrite app_length, map_length in G6.
          destruct new as [|j' new]; [|cbn [length] in G6; lia]. exfalso.
          destruct G10 as [G|G]; [cbn [length] in G; lia|]. destruct W' as (W1 & _). destruct W as (_ & H' & _).
          destruct (G id W1) as [[H|H]|H]; [congruence| |done].
          destruct H as (j1 & r & E & Hr & Hnr). assert (j1 = j) as -> by congruence.
          specialize (Hdue r ltac:(lia)). apply due_ready in Hdue. congruence.
      Qed.
      Lemma a_reads_grow K : (∃ k, taken k) ∨ ∃ d, (K <= reads (sw (s (n0 + d)%nat)))%nat ∧ waits (s (n0 + d)%nat) id j.
      Proof.
        induction K as [|K [IH|(d&HK&IH)]].
        - right. exists 0%nat. split; [lia|]. by rewrite Nat.add_0_r.
        - by left.
        - destruct (a_opens_again (n0 + d)) as (m & Hm & Ho).
          destruct (a_until (m - n0)) as [W|(k&Hk&W)]; [|left; by exists k].
          destruct (a_until (S m - n0)) as [W'|(k&Hk&W')]; [|left; by exists k].
          replace (n0 + (m - n0))%nat with m in W by lia.
          right. exists (S m - n0)%nat. replace (n0 + (S m - n0))%nat with (S m) in * by lia. split; [|done].
          destruct (a_open_tick m ltac:(lia) Ho W W') as [Hr _]. pose proof (a_reads_le (n0 + d) m Hm). lia.
      Qed.
      Lemma a_shrinks m d : (n0 <= m)%nat → (∀ r, (reads (sw (s m)) <= r)%nat → due j (clock r)) → waits (s m) id j →
        (∃ k, taken k) ∨
        (length (qlist (sw (s (m + d)%nat)) Queued) + free_ticks (s m) (map ev (seq m d))
          <= length (qlist (sw (s m)) Queued) + arrivals (s m) (map ev (seq m d)))%nat.
      Proof.
        intros Hm Hdue W. induction d as [|d [IH|IH]]; [right; rewrite (Nat.add_0_r m); cbn [seq map Spec.free_ticks Spec.arrivals]; lia|by left|].
        destruct (a_until (m + d - n0)) as [W1|(k&Hk&W1)]; [|left; by exists k].
        destruct (a_until (S (m + d) - n0)) as [W2|(k&Hk&W2)]; [|left; by exists k].
        replace (n0 + (m + d - n0))%nat with (m + d)%nat in W1 by lia.
        replace (n0 + (S (m + d) - n0))%nat with (S (m + d)) in W2 by lia.
        right. rewrite Nat.add_succ_r, seq_S, map_app, (free_ticks_app prof sched name clock), (arrivals_app prof sched name clock).
        cbn [map Spec.free_ticks Spec.arrivals]. rewrite <-a_add, <-a_S.
        enough (length (qlist (sw (s (S (m + d)))) Queued) + match ev (m + d)%nat with EvTick => Nat.min 1 (free_slots (s (m + d)%nat)) | _ => 0 end
          <= length (qlist (sw (s (m + d)%nat)) Queued) +
             (length (qlist (sw (s (S (m + d)))) Queued) - length (qlist (sw (s (m + d)%nat)) Queued)))%nat by lia.
        destruct (match ev (m + d)%nat with EvTick => true | _ => false end) eqn:Et; [|destruct (ev (m + d)%nat); done || lia].
        assert (ev (m + d)%nat = EvTick) as Ev by (by destruct (ev (m + d)%nat)). rewrite Ev.
        destruct (decide (0 < free_slots (s (m + d)%nat))%nat) as [Hf|Hf]; [|lia].
        destruct (a_open_tick (m + d) ltac:(lia) (conj Ev Hf) W1 W2) as [_ Hlt].
        assert (length (qlist (sw (s (S (m + d)))) Queued) < length (qlist (sw (s (m + d)%nat)) Queued))%nat; [|lia].
        apply Hlt. intros r Hr. apply Hdue. pose proof (a_reads_le m (m + d) ltac:(lia)). lia.
      Qed.
      Lemma a_taken B : (∃ k0, ∀ k, (k0 <= k)%nat → due j (clock k)) →
        (∀ d, (arrivals (s n0) (map ev (seq n0 d)) <= B)%nat) → ∃ k, taken k.
      Proof.
        intros [k0 Hdue] Harr. destruct (a_reads_grow k0) as [?|(d & Hk & W)]; [done|].
        destruct (a_many_opens (n0 + d) (S (length (qlist (sw (s (n0 + d)%nat)) Queued) + B))) as [d' Hd'].
        destruct (a_shrinks (n0 + d) d' ltac:(lia)) as [?|Hle]; [|done|done|].
        { intros r Hr. apply Hdue. lia. }
        exfalso. specialize (Harr (d + d')%nat). rewrite seq_app, map_app, (arrivals_app prof sched name clock), <-a_add in Harr. lia.
      Qed.
      Lemma a_progress B : (∃ k0, ∀ k, (k0 <= k)%nat → due j (clock k)) →
        (∀ d, (arrivals (s n0) (map ev (seq n0 d)) <= B)%nat) →
        ∃ n1, (n0 <= n1)%nat ∧ (length (runs_of id (s n0)) < length (runs_of id (s n1)))%nat.
      Proof.
        intros H1 H2. destruct (a_taken B H1 H2) as (k & Hk & j' & <- & Hin).
        destruct (a_executes (S k) j' Hin) as (m & Hm & Hr).
        pose proof (a_runs_of_le (jid j') n0 (S k) ltac:(lia)). exists m. split; [lia|]. lia.
      Qed.
    End waiting.
  End run.

  (** Nothing waits: a tick changes nothing. *)
  Lemma tick_nothing (s : sys) : alive s = true → qlist (sw s) Queued = [] → (step s EvTick).1 = s.
  Proof.
    intros Ha Hq. rewrite (step_tick prof sched name clock s Ha). unfold do_pick. rewrite Hq.
    destruct (Nat.leb_spec (max_processing_jobs (cfg s)) (length (qlist (sw s) Running))) as [Hm|Hm].
    - cbn. rewrite app_nil_r. destruct s; cbn in *; by subst.
    - cbn [length scan_loop]. rewrite Hq. cbn [rev take length scan_batch]. change (wrap32 (Z.of_nat 0)) with 0.
      unfold i32_norm. cbn. rewrite (proj2 (Nat.leb_gt _ _)) by (cbn; lia). cbn. rewrite app_nil_r. destruct s; cbn in *; by subst.
  Qed.
  Lemma poll_nothing (s : sys) i u : alive s = true → tasks s = [] → (step s (EvTask i u)).1 = s.
  Proof.
    intros Ha Ht. unfold sys_step. rewrite Ha. unfold commit. cbn [ev_prog]. rewrite Ht, lookup_nil. cbn.
    rewrite app_nil_r. destruct s; cbn in *; by subst.
  Qed.

  (** *** Where such states come from *)
  Lemma run_calls {W A} (g : handler W) (p : prog A) (Q : A → Prop) w w' a :
    all_calls (λ _ _, True) True p Q → run g p w = (w', Done a) → Q a.
  Proof.
    revert w. induction p as [x| | |X e k IH]; intros w Hp; cbn; try done; [by intros [= _ <-]|].
    destruct (g X e w) as [w1 x]. destruct Hp as [_ Hp]. apply IH, Hp.
  Qed.
  Notation rets := (all_calls (λ _ _, True) True).
  Lemma rets_any {A} (p : prog A) : rets p T.
  Proof. induction p as [a| | |X e k IH]; cbn; auto. Qed.
  Definition runs_ok (r : result (list (job M))) : Prop :=
    match r with Ok js => ∀ j, j ∈ js → jstatus (ctx j) = Running | Err _ => True end.
  Lemma rets_batch total ids (ready : list (job M)) :
    (∀ j, j ∈ ready → jstatus (ctx j) = Running) → rets (pick_batch name total ids ready) runs_ok.
  Proof.
    revert ready. induction ids as [|id ids IH]; intros ready Hr; [done|]. cbn [pick_batch]. cbv zeta.
    eapply all_calls_bind; [apply rets_any|]. intros [[j|]|] _; [| |done].
    - eapply all_calls_bind; [apply rets_any|]. intros now _. destruct (_ && _).
      + eapply all_calls_bind with (R := λ r, match r with Ok j' => jstatus (ctx j') = Running | Err _ => True end).
        { unfold job_process, save_and_notify. eapply all_calls_bind; [apply rets_any|]. intros t _.
          eapply all_calls_bind; [apply rets_any|]. intros [|] _; [|done].
          eapply all_calls_bind; [apply rets_any|]. done. }
        intros [j'|] Hj'; [|done]. eapply all_calls_bind; [apply rets_any|]. intros [|] _; [|done].
        apply IH. intros x [Hx|Hx]%elem_of_app; [by apply Hr|]. by apply elem_of_list_singleton in Hx as ->.
      + eapply all_calls_bind; [apply rets_any|]. intros [|] _; [|done]. by apply IH.
    - eapply all_calls_bind; [apply rets_any|]. intros [|] _; [|done]. by apply IH.
  Qed.
  Lemma rets_loop fuel total (ready : list (job M)) cursor :
    (∀ j, j ∈ ready → jstatus (ctx j) = Running) → rets (pick_loop prof name fuel total ready cursor) runs_ok.
  Proof.
    revert ready cursor. induction fuel as [|fuel IH]; intros ready cursor Hr; [done|]. cbn [pick_loop].
    eapply all_calls_bind; [apply rets_any|]. intros [ids|] _; [|done].
    destruct (i32_norm _ _); [|done]. eapply all_calls_bind; [by apply rets_batch|]. intros [rd|] Hrd; [|done].
    destruct (_ <=? _)%nat; [done|]. destruct (_ <=? _)%Z; [done|]. by apply IH.
  Qed.
  Definition tasks_sound (ts : list (task M)) : Prop := ∀ t, t ∈ ts → sound_task t.
  Lemma rets_process c ts : tasks_sound ts → rets (process_jobs prof name c ts) tasks_sound.
  Proof.
    intros Hts. unfold process_jobs. eapply all_calls_bind with (R := runs_ok).
    - unfold pick_jobs_to_process. eapply all_calls_bind; [apply rets_any|]. intros r _. cbv zeta.
      destruct (_ <=? _)%nat; [cbn; set_solver|]. unfold try_pick_specific_ready_jobs.
      eapply all_calls_bind; [apply rets_any|]. intros [n|] _; [|done]. apply rets_loop. set_solver.
    - intros [js|] Hjs; cbn; [|done]. intros t [Ht|Ht]%elem_of_app; [by apply Hts|].
      apply elem_of_list_fmap in Ht as (j & -> & Hj). split; [done|]. by apply Hjs.
  Qed.
  Lemma rets_event c ts e : tasks_sound ts → rets (ev_prog prof sched name c ts e) (λ r, tasks_sound r.1.1.2).
  Proof.
    intros Hts. destruct e as [j ec|k|k|k|c'| |i u| | |e' n|]; cbn [ev_prog].
    1-4: eapply all_calls_bind; [apply rets_any|]; done.
    - done.
    - eapply all_calls_bind; [by apply rets_process|]. done.
    - destruct (ts !! i) as [t|] eqn:Hi; [|done].
      assert (sound_task t) as [H1 H2] by (eapply Hts, elem_of_list_lookup_2, Hi).
      eapply all_calls_bind with (R := λ r, match r.1 with Some t' => sound_task t' | None => True end).
      + unfold task_step. destruct (t_phase t).
        * destruct (is_cancelled (t_job t)); (eapply all_calls_bind; [apply rets_any|]); done.
        * done.
        * eapply all_calls_bind; [apply rets_any|]. done.
        * eapply all_calls_bind; [apply rets_any|]. done.
      + intros [[t'|] js] Ht'; cbn.
        * intros x Hx. destruct (in_insert _ _ _ _ Hx) as [->|]; [done|by apply Hts].
        * intros x Hx. eapply Hts, in_delete, Hx.
    - cbn. intros t Ht. by apply elem_of_nil in Ht.
    - cbn. intros t Ht. by apply elem_of_nil in Ht.
    - cbn. intros t Ht. by apply elem_of_nil in Ht.
    - eapply all_calls_bind; [apply rets_process; intros t Ht; by apply elem_of_nil in Ht|]. done.
  Qed.
  Lemma tasks_sound_nil : tasks_sound [].
  Proof. intros t Ht. by apply elem_of_nil in Ht. Qed.
  Lemma tasks_sound_step {W} (g : handler W) (s : Sys.sys W M) e :
    tasks_sound (tasks s) → tasks_sound (tasks (sys_step prof sched name g s e).1).
  Proof.
    intros Hs. assert (tasks_sound (tasks (commit prof sched name g s e).1)) as Hc.
    { unfold commit. destruct (run g _ (sw s)) as [w [[[[c ts] js] r]| |]] eqn:E; [|apply tasks_sound_nil..].
      exact (run_calls _ _ _ _ _ _ (rets_event (cfg s) (tasks s) e Hs) E). }
    unfold sys_step. destruct (alive s); destruct e as [j ec|k|k|k|c'| |i u| | |e' n|]; try done; try apply tasks_sound_nil.
    destruct e'; try done; apply tasks_sound_nil.
  Qed.
  Lemma outage faults es : let s := fafter prof sched name clock faults es in alive s = true → sound (M := M) (survivor s).
  Proof.
    intros s Ha. split; [done|]. split; [apply keyed_faulty|]. cbn [survivor tasks]. clear Ha. unfold s, fafter. clear s.
    generalize (sys_init (M := M) (FWorld world_empty 0)) as s1, (tasks_sound_nil : tasks_sound (tasks (sys_init (M := M) (FWorld world_empty 0)))).
    induction es as [|e es IH]; intros s1 H1; [exact H1|]. apply IH. by apply tasks_sound_step.
  Qed.
  Lemma restart (s : sys) :
    alive s = false → keyed (sw s) → fits name (sw s) → let s' := (step s EvStart).1 in
    sound s' ∧ (length (lost s') <= length (qlist (sw s) Running))%nat.
  Proof.
    intros Ha Hk Hf. set (s1 := Sys (sw s) wq_config_default [] true (runs s) : sys).
    assert ((step s EvStart).1 = (step s1 EvTick).1) as E.
    { unfold sys_step. rewrite Ha. cbn [alive s1]. unfold commit. cbn [ev_prog cfg tasks s1].
      rewrite !run_bind, !run_process_jobs. cbv zeta. cbn [sw s1].
      destruct (do_pick _ _ _ _ _) as [[w js] [ ]] eqn:Ep; try done.
      all: exfalso; pose proof (any_tick s1 eq_refl Hk Hf) as Ht; cbv zeta in Ht.
      all: destruct Ht as (new & G1 & _); revert G1; rewrite (step_tick prof sched name clock s1 eq_refl).
      all: unfold s1 at 1; cbn [cfg sw].
      all: destruct (pick_done (M := M) prof name clock (max_processing_jobs wq_config_default) (sw s) Hf) as (js' & w' & Hd).
      all: rewrite run_pick, Ep in Hd; done. }
    cbv zeta. rewrite E.
    destruct (any_tick s1 eq_refl Hk Hf) as (new & G1 & G2 & G3 & G4 & G5 & G6 & G7 & G8 & G9 & G10).
    destruct (any_step s1 EvTick) as (H1 & H2 & H3 & _); try done.
    - rewrite (step_tick prof sched name clock s1 eq_refl). cbv zeta. cbn [cfg sw s1].
      destruct (pick_done (M := M) prof name clock (max_processing_jobs wq_config_default) (sw s) Hf) as (js' & w' & Hd).
      rewrite run_pick in Hd. destruct (do_pick _ _ _ _ _) as [[w js] [ ]]; done.
    - apply tasks_sound_nil.
    - split; [split; [|done]|].
      + rewrite (step_tick prof sched name clock s1 eq_refl). cbv zeta. cbn [cfg sw s1].
        destruct (pick_done (M := M) prof name clock (max_processing_jobs wq_config_default) (sw s) Hf) as (js' & w' & Hd).
        rewrite run_pick in Hd. destruct (do_pick _ _ _ _ _) as [[w js] [ ]]; done.
      + etrans; [exact H3|]. unfold a_lost. apply filter_length.
  Qed.
End any.
