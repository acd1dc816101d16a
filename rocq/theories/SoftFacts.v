(** Facts about processes that die in the middle of ticks, task steps and retries. *)
From Verif Require Import SpecSoft WorldFacts BackendFacts JsonFacts.

(** [J] at every point of a run, [P] where it panics, [Q] where it is done. *)
Fixpoint wp {A} (clock : nat → time) (J P : world → Prop) (p : prog A) (Q : A → world → Prop)
    (w : world) : Prop :=
  match p with
  | Ret a => J w ∧ Q a w
  | Panic | Diverge => J w ∧ P w
  | Eff e k => J w ∧ wp clock J P (k (mem_h clock _ e w).2) Q (mem_h clock _ e w).1
  end.

Section wp.
  Context (clock : nat → time) (J P : world → Prop).
  Notation h := (mem_h clock).

  Lemma wp_run {A} (p : prog A) Q w :
    wp clock J P p Q w →
    match run h p w with (w', Done a) => Q a w' | (w', _) => P w' end.
  Proof.
    revert w; induction p as [a| | |X e k IH]; intros w; cbn.
    - by intros [_ ?].
    - by intros [_ ?].
    - by intros [_ ?].
    - intros [_ H]. destruct (h X e w) as [w' x]. by apply IH.
  Qed.
  Lemma wp_run_n {A} (p : prog A) Q w n : wp clock J P p Q w → J (run_n h n p w).
  Proof.
    revert w n; induction p as [a| | |X e k IH]; intros w [|n]; cbn; try by intros [? _].
    intros [_ H]. destruct (h X e w) as [w' x]. by apply IH.
  Qed.
  Lemma wp_bind {A B} (p : prog A) (f : A → prog B) Q w :
    wp clock J P p (λ a w', wp clock J P (f a) Q w') w → wp clock J P (bind p f) Q w.
  Proof.
    revert w; induction p as [a| | |X e k IH]; intros w; cbn.
    - by intros [_ ?].
    - done.
    - done.
    - intros [? H]. split; [done|]. by apply IH.
  Qed.
  Lemma wp_mono {A} (p : prog A) (Q Q' : A → world → Prop) w :
    wp clock J P p Q w → (∀ a w', Q a w' → Q' a w') → wp clock J P p Q' w.
  Proof.
    intros H HQ. revert w H; induction p as [a| | |X e k IH]; intros w; cbn.
    - intros [? ?]; auto.
    - done.
    - done.
    - intros [? H]. split; [done|]. by apply IH.
  Qed.
End wp.

Section soft.
  Context {M : Type} `{SM : Serde M} {SO : SerdeOk M}.
  Context (name : string).
  (** A bound for the limits that the processes are given. *)
  Context (L : nat).
  Notation qname := (format_queue_name name).
  Notation qlist := (qlist name).
  Notation stored := (@stored M SM).

  Definition running (w : world) (x : string) : Prop :=
    ∃ j, stored w x = Some j ∧ jstatus (ctx j) = Running.
  Definition pending (w : world) (x : string) : Prop :=
    ∃ j, stored w x = Some j ∧ (jstatus (ctx j) = Queued ∨ jstatus (ctx j) = Running).
  (** [T]: the ids of the tasks there are. *)
  Record calm_with (T : list string) (w : world) : Prop := {
    cw_q : NoDup (qlist w Queued);
    cw_t : NoDup T;
    cw_d : ∀ x, x ∈ T → x ∉ qlist w Queued;
    cw_p : ∀ x, x ∈ qlist w Queued → pending w x;
    cw_r : ∀ x, x ∈ T → running w x;
    cw_k : ∀ x j, stored w x = Some j → jid j = x;
    cw_l : ∀ x, x ∈ T → x ∈ qlist w Running;
    cw_b : (length (qlist w Running) <= L)%nat;
  }.
  Notation I := calm_with.

  Lemma I_ext T w w' :
    (∀ s, qlist w' s = qlist w s) → (∀ k, stored w' k = stored w k) → I T w → I T w'.
  Proof.
    intros Hq Hs [H1 H2 H3 H4 H5 H6 H7 H8]. constructor.
    - by rewrite Hq.
    - done.
    - intros x Hx. rewrite Hq. by apply H3.
    - intros x. rewrite Hq. unfold pending. rewrite Hs. apply H4.
    - intros x. unfold running. rewrite Hs. apply H5.
    - intros x j. rewrite Hs. apply H6.
    - intros x. rewrite Hq. apply H7.
    - by rewrite Hq.
  Qed.
  Lemma I_st T w w' : st w' = st w → I T w → I T w'.
  Proof. intros E. apply I_ext; [intros s; by rewrite !qlist_ql, E|]. intros k. unfold stored. by rewrite E. Qed.
  Lemma I_sub T T' w : NoDup T' → (∀ x, x ∈ T' → x ∈ T) → I T w → I T' w.
  Proof. intros HN Hs [H1 H2 H3 H4 H5 H6 H7 H8]. constructor; auto. Qed.
  Lemma I_perm T T' w : T ≡ₚ T' → I T w → I T' w.
  Proof.
    intros HP HI. eapply I_sub; [| |exact HI].
    - rewrite <- HP. apply HI.
    - intros x. by rewrite HP.
  Qed.
  Lemma I_r T T' w : I (T ++ T') w → I T w.
  Proof.
    intros HI. eapply I_sub; [| |exact HI].
    - by destruct (proj1 (NoDup_app _ _) (cw_t _ _ HI)).
    - intros x. rewrite elem_of_app. by left.
  Qed.

  Lemma I_put T w (j : job M) :
    (jstatus (ctx j) = Running ∨ (jstatus (ctx j) = Queued ∧ jid j ∉ T) ∨
     (jid j ∉ qlist w Queued ∧ jid j ∉ T)) → I T w → I T (w_put w j).
  Proof.
    intros Hj [H1 H2 H3 H4 H5 H6 H7 H8]. constructor.
    - by rewrite qlist_put.
    - done.
    - intros x Hx. rewrite qlist_put. by apply H3.
    - intros x. rewrite qlist_put. intros Hx. unfold pending. rewrite stored_put.
      case_bool_decide as E; [|by apply H4]. subst x.
      exists (norm_job j). split; [done|]. cbn. destruct Hj as [->|[[-> _]|[? _]]]; [by right|by left|done].
    - intros x Hx. unfold running. rewrite stored_put. case_bool_decide as E; [|by apply H5]. subst x.
      exists (norm_job j). split; [done|]. cbn. destruct Hj as [->|[[_ ?]|[_ ?]]]; done.
    - intros x j'. rewrite stored_put. case_bool_decide as E; [|by apply H6]. intros [= <-]. by rewrite E.
    - intros x. rewrite qlist_put. apply H7.
    - by rewrite qlist_put.
  Qed.
  Lemma I_push T w x :
    x ∉ qlist w Queued → x ∉ T → pending w x → I T w → I T (w_push name w Queued x).
  Proof.
    intros Hx HT Hp [H1 H2 H3 H4 H5 H6 H7 H8].
    assert (E : qlist (w_push name w Queued x) Queued = x :: qlist w Queued).
    { rewrite qlist_push. by rewrite bool_decide_true. }
    constructor.
    - rewrite E. by constructor.
    - done.
    - intros y Hy. rewrite E, not_elem_of_cons. split; [by intros ->|by apply H3].
    - intros y. rewrite E, elem_of_cons. unfold pending. rewrite stored_push. intros [->|?]; [done|by apply H4].
    - intros y. unfold running. rewrite stored_push. apply H5.
    - intros y j. rewrite stored_push. apply H6.
    - intros y. rewrite qlist_push, bool_decide_false by done. apply H7.
    - by rewrite qlist_push, bool_decide_false by done.
  Qed.
  Lemma I_push_other T w s x : s ≠ Queued → s ≠ Running → I T w → I T (w_push name w s x).
  Proof.
    intros Hs Hs' [H1 H2 H3 H4 H5 H6 H7 H8].
    assert (E : qlist (w_push name w s x) Queued = qlist w Queued).
    { rewrite qlist_push. by rewrite bool_decide_false. }
    assert (E' : qlist (w_push name w s x) Running = qlist w Running).
    { rewrite qlist_push. by rewrite bool_decide_false. }
    constructor; rewrite ?E, ?E'; try done.
    - intros y. unfold pending. rewrite stored_push. apply H4.
    - intros y. unfold running. rewrite stored_push. apply H5.
    - intros y j. rewrite stored_push. apply H6.
  Qed.
  Lemma I_rem T w s x : s ≠ Running ∨ x ∉ T → I T w → I T (w_rem name w s x).
  Proof.
    intros Hsx [H1 H2 H3 H4 H5 H6 H7 H8].
    assert (E : ∀ s', qlist (w_rem name w s x) s' = if bool_decide (s' = s) then filter (λ y, y ≠ x) (qlist w s') else qlist w s').
    { intros s'. rewrite qlist_rem. case_bool_decide as Es; [by subst|done]. }
    assert (Hin : ∀ s' y, y ∈ qlist (w_rem name w s x) s' → y ∈ qlist w s').
    { intros s' y. rewrite E. case_bool_decide; [|done]. rewrite elem_of_list_filter. by intros [_ ?]. }
    constructor.
    - rewrite E. case_bool_decide; [by apply list.NoDup_filter|done].
    - done.
    - intros y Hy Hy'%Hin. by apply (H3 y).
    - intros y Hy%Hin. unfold pending. rewrite stored_rem. by apply H4.
    - intros y. unfold running. rewrite stored_rem. apply H5.
    - intros y j. rewrite stored_rem. apply H6.
    - intros y Hy. rewrite E. case_bool_decide as Es; [|by apply H7]. apply elem_of_list_filter.
      split; [|by apply H7]. intros ->. by destruct Hsx.
    - rewrite E. case_bool_decide; [|done]. etrans; [|exact H8]. apply filter_length.
  Qed.
  Lemma rem_notin w s x y : y ∉ qlist w Queued → y ∉ qlist (w_rem name w s x) Queued.
  Proof.
    intros H. rewrite qlist_rem. case_bool_decide as E; [|done]. subst s.
    rewrite elem_of_list_filter. by intros [_ ?].
  Qed.
  (** A job that is done neither waits nor has a task. *)
  Lemma I_done T w x :
    I T w → (∀ j, stored w x = Some j → is_done j = true) → x ∉ qlist w Queued ∧ x ∉ T.
  Proof.
    intros HI H. split; intros Hx.
    - destruct (cw_p _ _ HI x Hx) as (j&Hj&Hs). apply H in Hj. unfold is_done in Hj.
      destruct Hs as [Hs|Hs]; by rewrite Hs in Hj.
    - destruct (cw_r _ _ HI x Hx) as (j&Hj&Hs). apply H in Hj. unfold is_done in Hj.
      by rewrite Hs in Hj.
  Qed.
  Lemma I_queued T w x j :
    I T w → stored w x = Some j → jstatus (ctx j) ≠ Running → x ∉ T.
  Proof. intros HI Hj Hs Hx. destruct (cw_r _ _ HI x Hx) as (j'&Hj'&Hs'). congruence. Qed.

  Ltac iw H := first [exact H | refine (I_st _ _ _ _ H); reflexivity].
  Context (prof : profile).
  Context (sched : string → option (time → option time)).
  Context (clock : nat → time).
  Notation h := (mem_h clock).
  Notation WP T := (wp clock (I T) (I T)).

  Lemma wp_re_enqueue T (j : job M) w :
    I T w → jid j ∉ qlist w Queued → jid j ∉ T →
    WP T (re_enqueue name j) (λ r w', r = Ok tt ∧ I T w') w.
  Proof.
    intros HI Hq HT.
    pose proof (I_rem T w (jstatus (ctx j)) (jid j) (or_intror HT) HI) as HI1.
    pose proof (rem_notin w (jstatus (ctx j)) (jid j) (jid j) Hq) as Hq1.
    set (w1 := w_rem name w (jstatus (ctx j)) (jid j)) in *.
    set (j' := enq j (now_ms clock w1)).
    assert (HI2 : I T (w_put w1 j')).
    { apply I_put; [|done]. right. left. done. }
    assert (HI3 : I T (w_push name (w_put w1 j') Queued (jid j))).
    { apply I_push; [by rewrite qlist_put|done| |done].
      exists (norm_job j'). split; [|by left]. rewrite stored_put. by rewrite bool_decide_true. }
    repeat (split; [first [iw HI|iw HI1|iw HI2|iw HI3|reflexivity]|]). iw HI3.
  Qed.

  Lemma wp_finished T (j : job M) w :
    I T w → jid j ∉ qlist w Queued → jid j ∉ T →
    WP T (mark_job_is_finished name j) (λ r w', r = Ok tt ∧ I T w') w.
  Proof.
    intros HI Hq HT.
    pose proof (I_rem T w Running (jid j) (or_intror HT) HI) as HI1.
    pose proof (rem_notin w Running (jid j) (jid j) Hq) as Hq1.
    set (w1 := w_rem name w Running (jid j)) in *.
    set (j' := WorldFacts.fin j (now_ms clock w1)).
    assert (HI2 : I T (w_put w1 j')).
    { apply I_put; [|done]. right. right. done. }
    assert (HI3 : I T (w_push name (w_put w1 j') Finished (jid j))).
    { by apply I_push_other. }
    repeat (split; [first [iw HI|iw HI1|iw HI2|iw HI3|reflexivity]|]). iw HI3.
  Qed.
  Lemma wp_failed T (j : job M) w :
    I T w → jid j ∉ qlist w Queued → jid j ∉ T →
    WP T (mark_job_is_failed name j) (λ r w', r = Ok tt ∧ I T w') w.
  Proof.
    intros HI Hq HT.
    set (j' := fai j (now_ms clock w)).
    assert (HI2 : I T (w_put w j')).
    { apply I_put; [|done]. right. right. done. }
    pose proof (I_rem T (w_put w j') Running (jid j) (or_intror HT) HI2) as HI1.
    assert (HI3 : I T (w_push name (w_rem name (w_put w j') Running (jid j)) Failed (jid j))).
    { by apply I_push_other. }
    repeat (split; [first [iw HI|iw HI1|iw HI2|iw HI3|reflexivity]|]). iw HI3.
  Qed.

  Lemma wp_next_tick T (j : job M) w :
    I T w →
    WP T (next_tick prof sched j)
       (λ o w', I T w' ∧ qlist w' Queued = qlist w Queued ∧ ∀ j', o = Some j' → jid j' = jid j) w.
  Proof.
    intros HI. unfold next_tick. cbn. split; [exact HI|].
    destruct (jtype (ctx j)) as [|at_|ex ns tr cc]; cbn; [split_and!; first [iw HI|done]|split_and!; first [iw HI|done]|].
    destruct (sched ex) as [after|]; cbn; [|split_and!; first [iw HI|done]].
    split; [iw HI|].
    destruct (after _) as [up|]; [destruct (i32_norm _ _) as [n|]; [|cbn; split_and!; iw HI]|];
      cbv zeta beta;
      (destruct (match max_repeat cc return bool with Some _ => _ | None => _ end);
        [|destruct (match end_at cc return bool with Some _ => _ | None => _ end)]);
      cbn; split_and!; first [iw HI|done|by intros ? [= <-]].
  Qed.
  Lemma wp_finish T (j : job M) b w :
    I T w → jid j ∉ qlist w Queued → jid j ∉ T →
    WP T (execute_finish prof sched name j b) (λ r w', r = Ok tt ∧ I T w') w.
  Proof.
    intros HI Hq HT. unfold execute_finish. apply wp_bind.
    eapply wp_mono; [by apply wp_next_tick|]. intros o w' (HI'&Eq&Ho).
    rewrite <- Eq in Hq. destruct o as [nj|].
    - specialize (Ho _ eq_refl). apply wp_re_enqueue; [done| |]; by rewrite Ho.
    - destruct b; [by apply wp_failed|by apply wp_finished].
  Qed.
  Lemma wp_tail T (orig j : job M) u w :
    I T w → jid j ∉ qlist w Queued → jid j ∉ T →
    WP T (task_tail prof sched name orig j u) (λ _ w', I T w') w.
  Proof.
    intros HI Hq HT. unfold task_tail. apply wp_bind.
    eapply wp_mono with (Q := λ r w', r = Ok tt ∧ I T w').
    2:{ intros r w' [-> HI']. by split. }
    unfold execute_tail. destruct (jretry (ctx j)) as [r|]; [|by apply wp_finish].
    apply wp_bind. eapply wp_mono with (Q := λ _ w', I T w' ∧ qlist w' Queued = qlist w Queued).
    - unfold call_retry_at. destruct (ur_retry u) as [f|r' o]; [|by split_and!].
      destruct (f && should_retry r); [|by split_and!]. cbn. split; [exact HI|].
      destruct (retry_retry_at _ _ _) as [[r' t]|]; cbn; split_and!; first [iw HI|done].
    - intros [r' o] w' [HI' Eq]. rewrite <- Eq in Hq. destruct o as [t|].
      + by apply wp_re_enqueue.
      + by apply wp_finish.
  Qed.

  Lemma wp_get {A} (J P : world → Prop) id (k : option (job M) → prog (result A)) Q w :
    J w → wp clock J P (k (stored w id)) Q w →
    wp clock J P (let? o := get_from_storage id in k o)%prog Q w.
  Proof. intros HJ H. split; [exact HJ|]. exact H. Qed.
  Lemma wp_retry T id w :
    I T w → WP T (retry_job (M := M) name id) (λ _ w', I T w') w.
  Proof.
    intros HI. unfold retry_job. apply wp_get; [exact HI|].
    destruct (stored w id) as [j|] eqn:Ej; [|by split].
    destruct (is_done j) eqn:Ed; [|by split].
    assert (Hid : jid j = id) by by eapply cw_k.
    destruct (I_done T w id HI) as [Hq HT].
    { intros j' Hj'. congruence. }
    apply wp_bind. eapply wp_mono.
    - apply wp_re_enqueue; [done| |]; by rewrite Hid.
    - intros r w' [-> HI']. by split.
  Qed.

  Lemma wp_batch T total ids rest (ready : list (job M)) w :
    I (T ++ map jid ready) w → qlist w Queued = rest ++ rev ids →
    (length (qlist w Running) + (total - length ready) <= L)%nat →
    WP T (pick_batch name total ids ready)
       (λ r w', ∃ js, r = Ok js ∧ I (T ++ map jid js) w' ∧
                      (length (qlist w' Running) + (total - length js) <= L)%nat) w.
  Proof.
    revert rest ready w. induction ids as [|id ids IH]; intros rest ready w HI Hq HL.
    { split; [by eapply I_r|]. by exists ready. }
    assert (HT : I T w) by by eapply I_r.
    cbn [rev] in Hq. rewrite app_assoc in Hq.
    assert (Hrot : ∀ w1, st w1 = st w →
      WP T (bind (do (QMove (qname Queued) (qname Queued) 1 Back Front))
              (λ r, match r with Ok _ => pick_batch name total ids ready | Err e => Ret (Err e) end))
         (λ r w', ∃ js, r = Ok js ∧ I (T ++ map jid js) w' ∧
                      (length (qlist w' Running) + (total - length js) <= L)%nat) w1).
    { intros w1 E1. assert (HT1 : I T w1) by by apply (I_st T w).
      assert (Hq1 : qlist w1 Queued = (rest ++ rev ids) ++ [id]) by by rewrite qlist_ql, E1, <- qlist_ql.
      split; [exact HT1|]. cbn [mem_h].
      pose proof (qlist_rotate name w1 _ id Queued Hq1) as Hr. rewrite bool_decide_true in Hr by done.
      pose proof (qlist_rotate name w1 _ id Running Hq1) as Hr'. rewrite bool_decide_false in Hr' by done.
      assert (HL1 : (length (qlist (w_move name w1 Queued Queued) Running) + (total - length ready) <= L)%nat).
      { rewrite Hr', qlist_ql, E1, <- qlist_ql. done. }
      assert (HI1 : I (T ++ map jid ready) (w_move name w1 Queued Queued)).
      { assert (HI1 : I (T ++ map jid ready) w1) by by apply (I_st _ w).
        destruct HI1 as [H1 H2 H3 H4 H5 H6 H7 H8].
        assert (HP : qlist (w_move name w1 Queued Queued) Queued ≡ₚ qlist w1 Queued).
        { rewrite Hr, Hq1. apply Permutation_cons_append. }
        constructor.
        - by rewrite HP.
        - done.
        - intros x Hx. rewrite HP. by apply H3.
        - intros x. rewrite HP. unfold pending. rewrite stored_move. apply H4.
        - intros x. unfold running. rewrite stored_move. apply H5.
        - intros x j. rewrite stored_move. apply H6.
        - intros x. rewrite Hr'. apply H7.
        - by rewrite Hr'. }
      unfold w_move in HI1, Hr, HL1. destruct (mem_move _ _ _ _ _ _) as [s l].
      apply (IH (id :: rest)); [exact HI1|exact Hr|exact HL1]. }
    cbn [pick_batch]. apply wp_get; [exact HT|].
    destruct (stored w id) as [j|] eqn:Ej; [|by apply Hrot].
    split; [exact HT|]. cbn [bind fst snd mem_h].
    destruct (is_ready j _ && _ && _) eqn:Er; [|by apply Hrot].
    apply andb_prop in Er as [[_ Er]%andb_prop _]. apply Nat.ltb_lt in Er.
    assert (Hid : jid j = id) by by eapply cw_k.
    set (w0 := w_tick w).
    set (j' := prc j (now_ms clock w0)).
    assert (HI1 : I (T ++ map jid ready) (w_put w0 j')).
    { apply I_put; [by left|]. iw HI. }
    assert (HT1 : I T (w_put w0 j')) by by eapply I_r.
    apply wp_bind. split; [iw HT|]. split; [iw HT|]. split; [iw HT1|]. split; [iw HT1|].
    set (w2 := w_save (w_tick w0) j').
    change (WP T (bind (do (QMove (qname Queued) (qname Running) 1 Back Front))
              (λ r, match r with Ok _ => pick_batch name total ids (ready ++ [j']) | Err e => Ret (Err e) end))
         (λ r w', ∃ js, r = Ok js ∧ I (T ++ map jid js) w' ∧
                      (length (qlist w' Running) + (total - length js) <= L)%nat) w2).
    assert (HI2 : I (T ++ map jid ready) w2) by (iw HI1).
    assert (Hq2 : qlist w2 Queued = (rest ++ rev ids) ++ [id]).
    { unfold w2. by rewrite qlist_save. }
    pose proof (qlist_pick name w2 _ id Queued Hq2) as Hr. cbn beta iota in Hr.
    pose proof (qlist_pick name w2 _ id Running Hq2) as Hr'. cbn beta iota in Hr'.
    assert (Ew2 : qlist w2 Running = qlist w Running).
    { unfold w2. by rewrite qlist_save. }
    assert (HL2 : (length (qlist (w_move name w2 Queued Running) Running) + (total - length (ready ++ [j'])) <= L)%nat).
    { rewrite Hr', Ew2, app_length. cbn [length]. lia. }
    assert (HI3 : I (T ++ map jid (ready ++ [j'])) (w_move name w2 Queued Running)).
    { assert (Hin : id ∈ qlist w2 Queued) by (rewrite Hq2; apply elem_of_app; right; by apply elem_of_list_singleton).
      destruct HI2 as [H1 H2 H3 H4 H5 H6 H7 H8].
      assert (Hni : id ∉ T ++ map jid ready) by (intros Hx; by apply (H3 id)).
      rewrite map_app, app_assoc. cbn [map]. change (jid j') with (jid j). rewrite Hid.
      rewrite Hq2 in H1. apply NoDup_app in H1 as (H1&Hd&_).
      constructor.
      - by rewrite Hr.
      - apply NoDup_app. split_and!; [done| |apply NoDup_singleton].
        intros x Hx ->%elem_of_list_singleton. done.
      - intros x. rewrite Hr, elem_of_app. intros [Hx| ->%elem_of_list_singleton].
        + intros Hx'. apply (H3 x Hx). rewrite Hq2. apply elem_of_app. by left.
        + intros Hx'. apply (Hd id Hx'). by apply elem_of_list_singleton.
      - intros x. rewrite Hr. unfold pending. rewrite stored_move. intros Hx. apply H4.
        rewrite Hq2. apply elem_of_app. by left.
      - intros x. unfold running. rewrite stored_move. rewrite elem_of_app.
        intros [Hx| ->%elem_of_list_singleton]; [by apply H5|].
        exists (norm_job j'). split; [|done]. unfold w2. rewrite stored_save.
        rewrite bool_decide_true; [done|]. by rewrite <- Hid.
      - intros x jx. rewrite stored_move. apply H6.
      - intros x. rewrite Hr', elem_of_app. intros [Hx| ->%elem_of_list_singleton].
        + apply elem_of_cons. right. by apply H7.
        + apply elem_of_cons. by left.
      - lia. }
    split; [iw HT1|]. cbn [mem_h].
    unfold w_move in HI3, Hr, HL2. destruct (mem_move _ _ _ _ _ _) as [s l].
    apply (IH rest); [exact HI3|exact Hr|exact HL2].
  Qed.

  Lemma wp_loop T fuel total (ready : list (job M)) cursor w :
    I (T ++ map jid ready) w → (length (qlist w Running) + (total - length ready) <= L)%nat →
    WP T (pick_loop prof name fuel total ready cursor)
       (λ r w', ∃ js, r = Ok js ∧ I (T ++ map jid js) w') w.
  Proof.
    revert ready cursor w. induction fuel as [|fuel IH]; intros ready cursor w HI HL.
    { split; by eapply I_r. }
    assert (HT : I T w) by by eapply I_r.
    cbn [pick_loop]. split; [exact HT|]. cbn [mem_h fst snd].
    rewrite mem_get_spec. rewrite <- qlist_ql. cbn [from_end].
    set (ids := take BATCH (rev (qlist w Queued))).
    change (WP T (match i32_norm prof (cursor - Z.of_nat (length ids)) with
       | None => Panic
       | Some cursor' => bind (pick_batch name total ids ready) (λ r, match r with
           | Ok ready' => if (total <=? length ready')%nat then Ret (Ok ready')
               else if cursor' <=? 0 then Ret (Ok ready') else pick_loop prof name fuel total ready' cursor'
           | Err e => Ret (Err e) end) end)
       (λ r w', ∃ js, r = Ok js ∧ I (T ++ map jid js) w') w).
    destruct (i32_norm prof (cursor - Z.of_nat (length ids))) as [c|]; [|by split].
    apply wp_bind. eapply wp_mono.
    { apply (wp_batch T total ids (rev (drop BATCH (rev (qlist w Queued)))) ready w); [done| |done].
      unfold ids. by rewrite <- rev_app_distr, take_drop, rev_involutive. }
    intros r w' (js&->&HI'&HL'). cbn beta iota.
    assert (HT' : I T w') by by eapply I_r.
    destruct (total <=? length js)%nat; [split; [done|by exists js]|].
    destruct (c <=? 0); [split; [done|by exists js]|]. by apply IH.
  Qed.

  Lemma wp_process T (c : wq_config) (ts : list (task M)) w :
    I T w → (max_processing_jobs c <= L)%nat →
    WP T (process_jobs prof name c ts)
       (λ ts' w', ∃ js, ts' = ts ++ map (λ j, Task j j Spawned) js ∧ I (T ++ map jid js) w') w.
  Proof.
    intros HI Hc. unfold process_jobs. apply wp_bind.
    eapply wp_mono with (Q := λ r w', ∃ js, r = Ok js ∧ I (T ++ map jid js) w').
    2:{ intros r w' (js&->&HI'). split; [by eapply I_r|]. by exists js. }
    unfold pick_jobs_to_process. split; [exact HI|]. cbn [mem_h fst snd bind].
    destruct (_ <=? _)%nat eqn:El.
    { split; [done|]. exists []. split; [done|]. cbn. by rewrite app_nil_r. }
    unfold try_pick_specific_ready_jobs. split; [exact HI|]. cbn [mem_h fst snd bind].
    apply Nat.leb_gt in El. apply wp_loop; [cbn; by rewrite app_nil_r|].
    cbn [length]. rewrite mem_count_spec in *. rewrite qlist_ql. lia.
  Qed.
End soft.
