(** No starvation, however many jobs arrive, as long as the waiting list fits one batch. *)
From Verif Require Import SpecShort JsonFacts BackendFacts WorldFacts MicroFacts LifeFacts HistFacts SubmitFacts LifeProps ListFacts ApiFacts PickFacts.

Lemma behind_split id a b : id ∉ a → behind id (a ++ id :: b) = length b.
Proof.
  induction a as [|x a IH]; intros Hn; cbn; [by rewrite String.eqb_refl|].
  apply not_elem_of_cons in Hn as [Hx Hn]. destruct (String.eqb_spec x id); [congruence|]. by apply IH.
Qed.
Lemma behind_filter id x l : x ≠ id → id ∈ l → (behind id (filter (λ y, y ≠ x) l) <= behind id l)%nat.
Proof.
  intros Hx. induction l as [|y l IH]; intros Hin; [by apply not_elem_of_nil in Hin|].
  rewrite filter_cons. cbn [behind]. destruct (String.eqb_spec y id) as [->|Hy].
  - rewrite decide_True by congruence. cbn [behind]. rewrite String.eqb_refl. apply filter_length.
  - assert (id ∈ l) as Hin' by set_solver. specialize (IH Hin').
    destruct (decide (y ≠ x)); [|done]. cbn [behind]. destruct (String.eqb_spec y id); [done|done].
Qed.

Lemma sublist_NoDup {A} (l k : list A) : l `sublist_of` k → NoDup k → NoDup l.
Proof.
  induction 1 as [|x l k Hs IH|x l k Hs IH]; intros Hn; [done| |].
  - apply list.NoDup_cons in Hn as [Hx Hn]. apply list.NoDup_cons. split; [|by apply IH].
    intros Hi. apply Hx. eapply elem_of_submseteq; [exact Hi|by apply sublist_submseteq].
  - apply list.NoDup_cons in Hn as [_ Hn]. by apply IH.
Qed.

Section short.
  Context {M : Type} `{SM : Serde M} {SO : SerdeOk M}.
  Context (prof : profile).
  Context (sched : string → option (time → option time)).
  Context (name : string).
  Context (clock : nat → time).
  Notation h := (mem_h clock).
  Notation qlist := (qlist name).
  Notation stored := (@stored M SM).
  Notation sys := (sys world M).
  Notation step := (sys_step prof sched name h).
  Notation go := (sys_run prof sched name h).
  Notation at_ := (at_ name).
  Notation all_at := (all_at name).
  Notation ok_hist := (ok_hist prof sched name clock).

  (** *** A batch takes the oldest *)
  Lemma scan_batch_fair total ids rest ready w id j :
    rev (qlist w Queued) = ids ++ rest → keyed w → NoDup ids → (∀ x, x ∈ ids → x ∉ map jid ready) →
    (id ∈ ids → stored w id = Some j) → (∀ k, (reads w <= k)%nat → is_ready j (clock k) = true) →
    let r := scan_batch name clock total ids ready w in
    ∃ kept, rev (qlist r.1 Queued) = rest ++ kept ∧ kept `sublist_of` ids ∧
      ∀ a b, ids = a ++ id :: b → id ∈ kept →
        ∃ ka kb, kept = ka ++ id :: kb ∧ (length ka + (total - length ready) <= length a)%nat.
  Proof.
    revert rest ready w. induction ids as [|x ids IH]; intros rest ready w Hq Hk Hnd Hdis Hst Hrdy.
    { exists []. cbn. rewrite app_nil_r in *. split; [done|]. split; [done|]. intros a b Ha. by destruct a. }
    cbn [scan_batch]. cbn [app] in Hq. apply rev_snoc in Hq. rewrite rev_app_distr in Hq.
    apply list.NoDup_cons in Hnd as [Hni Hnd].
    (* rotated *)
    assert (∀ w1, (∀ s, qlist w1 s = qlist w s) → (∀ k, stored w1 k = stored w k) → (reads w <= reads w1)%nat →
      (x = id → (total <= length ready)%nat) →
      let r := scan_batch name clock total ids ready (w_move name w1 Queued Queued) in
      ∃ kept, rev (qlist r.1 Queued) = rest ++ kept ∧ kept `sublist_of` x :: ids ∧
      ∀ a b, x :: ids = a ++ id :: b → id ∈ kept →
        ∃ ka kb, kept = ka ++ id :: kb ∧ (length ka + (total - length ready) <= length a)%nat) as Hrot.
    { intros w1 Hq1 Hs1 Hr1 Hwhy. set (w2 := w_move name w1 Queued Queued).
      assert (∀ s, qlist w2 s = if bool_decide (s = Queued) then x :: rev (ids ++ rest) else qlist w s) as Hq2.
      { intros s. unfold w2. rewrite (qlist_rotate name w1 (rev (ids ++ rest)) x) by by rewrite Hq1, Hq, rev_app_distr.
        destruct (bool_decide _); [done|apply Hq1]. }
      assert (∀ k, stored w2 k = stored w k) as Hs2 by (intros k; unfold w2; by rewrite stored_move, Hs1).
      assert (reads w <= reads w2)%nat as Hr2 by exact Hr1.
      destruct (IH (rest ++ [x]) ready w2) as (kept & H1 & H2 & H3).
      { rewrite Hq2, bool_decide_true by done. cbn [rev]. by rewrite rev_involutive, app_assoc. }
      { intros k jj. rewrite Hs2. apply Hk. }
      { done. }
      { intros k Hkk. apply Hdis. by right. }
      { intros Hi. rewrite Hs2. apply Hst. by right. }
      { intros k Hkk. apply Hrdy. lia. }
      exists (x :: kept). cbn zeta. fold w2. rewrite H1, <-app_assoc. split; [done|]. split; [by apply sublist_skip|].
      intros a b Ha Hin. destruct a as [|y a]; cbn [app] in Ha; injection Ha as -> Ha.
      - exists [], kept. split; [done|]. cbn. specialize (Hwhy eq_refl). lia.
      - destruct (H3 a b Ha) as (ka & kb & -> & Hl).
        { apply elem_of_cons in Hin as [<-|Hin]; [|done]. exfalso. apply Hni. rewrite Ha. set_solver. }
        exists (y :: ka), kb. split; [done|]. cbn. lia. }
    destruct (stored w x) as [jx|] eqn:Ex.
    2: { apply (Hrot w); try done. intros ->. specialize (Hst ltac:(by left)). congruence. }
    destruct (is_ready jx (clock (reads w)) && (length ready <? total)%nat &&
      negb (existsb (λ rj, String.eqb (jid rj) (jid jx)) ready)) eqn:Epick.
    2: { apply (Hrot (w_tick w)); try done; [cbn; lia|]. intros ->. specialize (Hst ltac:(by left)). rewrite Ex in Hst. injection Hst as ->.
         rewrite (Hrdy (reads w) ltac:(lia)) in Epick.
         assert (existsb (λ rj, String.eqb (jid rj) (jid j)) ready = false) as E.
         { destruct (existsb _ ready) eqn:E; [|done]. apply ready_has in E. rewrite (Hk _ _ Ex) in E.
           exfalso. eapply Hdis; [|exact E]. by left. }
         rewrite E in Epick. cbn in Epick. rewrite andb_true_r in Epick. apply Nat.ltb_ge in Epick. done. }
    apply andb_true_iff in Epick as [Epick Enew]. apply andb_true_iff in Epick as [_ Elt]. apply Nat.ltb_lt in Elt.
    pose proof (Hk _ _ Ex) as Hid.
    clear Hrot. set (j' := prc jx (now_ms clock (w_tick w))). set (w1 := w_save (w_tick (w_tick w)) j').
    set (w2 := w_move name w1 Queued Running).
    assert (jid j' = x) as Hid' by exact Hid.
    assert (qlist w1 Queued = rev (ids ++ rest) ++ [x]) as Hq1.
    { unfold w1. rewrite qlist_save, !qlist_tick, Hq. by rewrite rev_app_distr. }
    assert (qlist w2 Queued = rev (ids ++ rest)) as Hq2.
    { unfold w2. by rewrite (qlist_pick name w1 _ x Queued Hq1). }
    assert (∀ k, stored w2 k = if bool_decide (k = x) then Some (norm_job j') else stored w k) as Hs2.
    { intros k. unfold w2, w1. rewrite stored_move, stored_save, Hid'. done. }
    assert (reads w <= reads w2)%nat as Hr2 by (cbn; lia).
    destruct (IH rest (ready ++ [j']) w2) as (kept & H1 & H2 & H3).
    { rewrite Hq2. by rewrite rev_involutive. }
    { intros k jj. rewrite Hs2. destruct (bool_decide_reflect (k = x)) as [->|]; [intros [= <-]; done|apply Hk]. }
    { done. }
    { intros k Hkk. rewrite map_app. cbn [map]. rewrite Hid'. specialize (Hdis k ltac:(set_solver)). set_solver. }
    { intros Hi. rewrite Hs2, bool_decide_false by (intros ->; done). apply Hst. by right. }
    { intros k Hkk. apply Hrdy. lia. }
    exists kept. split; [done|]. split; [by apply sublist_cons|].
    intros a b Ha Hin. destruct a as [|y a]; cbn [app] in Ha; injection Ha as -> Ha.
    - exfalso. apply Hni. eapply elem_of_submseteq; [exact Hin|by apply sublist_submseteq].
    - destruct (H3 a b Ha Hin) as (ka & kb & -> & Hl). exists ka, kb. split; [done|].
      rewrite app_length in Hl. cbn in *. lia.
  Qed.

  (** A tick with at most 20 waiting ids. *)
  Lemma pick_short max w id j :
    keyed w → NoDup (qlist w Queued) → (length (qlist w Queued) <= 20)%nat →
    id ∈ qlist w Queued → stored w id = Some j → (∀ k, (reads w <= k)%nat → is_ready j (clock k) = true) →
    let r := do_pick (M := M) prof name clock max w in
    id ∈ qlist r.1.1 Queued →
    (behind id (qlist r.1.1 Queued) + (max - length (qlist w Running)) <= behind id (qlist w Queued))%nat.
  Proof.
    intros Hk Hnd Hlen Hin Hs Hrdy. unfold do_pick.
    destruct (Nat.leb_spec max (length (qlist w Running))) as [Hm|Hm]; [cbn; lia|].
    cbn [scan_loop].
    assert (take BATCH (rev (qlist w Queued)) = rev (qlist w Queued)) as Et.
    { apply take_ge. rewrite rev_length. unfold BATCH. lia. }
    rewrite Et, rev_length, wrap32_id by (unfold i32_max; lia).
    rewrite Z.sub_diag. change (i32_norm prof 0) with (Some 0). cbv iota beta.
    destruct (scan_batch_fair (max - length (qlist w Running)) (rev (qlist w Queued)) [] [] w id j) as (kept & H1 & H2 & H3); try done.
    { by rewrite app_nil_r. }
    { by rewrite <-Permutation_rev. }
    { set_solver. }
    cbv zeta in H1. destruct (scan_batch name clock _ _ [] w) as [w' ready'] eqn:Esb. cbn [fst snd] in H1.
    assert (∀ o : world * list (job M) * outcome unit, o.1.1 = w' → 
      let r := o in id ∈ qlist r.1.1 Queued →
      (behind id (qlist r.1.1 Queued) + (max - length (qlist w Running)) <= behind id (qlist w Queued))%nat) as Hgen.
    { intros o Ho. cbv zeta. rewrite Ho. intros Hin'.
      apply elem_of_list_split in Hin as (l1 & l2 & El).
      assert (id ∉ l1) as Hn1. { rewrite El in Hnd. apply NoDup_app in Hnd as (_ & Hd & _). intros Hi. apply (Hd id Hi). by left. }
      assert (rev (qlist w' Queued) = kept) as <- by done.
      destruct (H3 (rev l2) (rev l1)) as (ka & kb & E & Hl).
      { rewrite El, rev_app_distr. cbn. by rewrite <-app_assoc. }
      { by rewrite <-Permutation_rev. }
      assert (NoDup (qlist w' Queued)) as Hnd'.
      { rewrite (Permutation_rev (qlist w' Queued)). eapply sublist_NoDup; [exact H2|]. by rewrite <-Permutation_rev. }
      assert (qlist w' Queued = rev kb ++ id :: rev ka) as E'.
      { rewrite <-(rev_involutive (qlist w' Queued)), E, rev_app_distr. cbn. by rewrite <-app_assoc. }
      assert (id ∉ rev kb) as Hn2. { rewrite E' in Hnd'. apply NoDup_app in Hnd' as (_ & Hd & _). intros Hi. apply (Hd id Hi). by left. }
      rewrite El, E', !behind_split, rev_length by done. rewrite rev_length in Hl. cbn in Hl. lia. }
    destruct (_ <=? _)%nat; [|change (0 <=? 0) with true]; by apply Hgen.
  Qed.

  (** *** Other steps add at the front or remove *)
  Lemma list_effect (s : sys) e :
    all_at s → no_crash_in e = true → ¬ is_tick e →
    let l := qlist (sw s) Queued in let l' := qlist (sw (step s e).1) Queued in
    l' = l ∨ (∃ x, l' = x :: l) ∨ ∃ x, l' = filter (λ y, y ≠ x) l.
  Proof.
    intros Ha Hc Ht. cbv zeta. unfold sys_step. destruct (alive s).
    2: { destruct e; try (by left); try done. exfalso. apply Ht. by right. }
    destruct s as [w c ts a rs].
    destruct e; try done; try (by left); unfold commit; cbn [cfg tasks sw runs ev_prog].
    - rewrite run_bind, run_run_with_config. cbn [run fst sw]. unfold do_run.
      destruct (stored w (jid j)) as [ex|].
      + destruct (re_run c0 && is_done ex); destruct (override_data c0 && negb (is_running ex));
          rewrite ?qlist_do_enqueue, ?qlist_put; cbn; eauto.
      + rewrite qlist_do_enqueue. cbn. eauto.
    - rewrite run_bind, run_cancel. cbn [run fst sw]. unfold do_cancel.
      destruct (stored w id) as [j|]; [|by left]. destruct (is_queued j); [|by left].
      rewrite qlist_rem, bool_decide_true by done. rewrite qlist_save, qlist_tick. eauto.
    - rewrite run_bind, run_retry. cbn [run fst sw]. unfold do_retry.
      destruct (stored w id) as [j|]; [|by left]. destruct (is_done j) eqn:Ed; [|by left].
      rewrite qlist_do_re_enqueue. cbn. apply is_done_status in Ed. right; left; exists (jid j). destruct Ed as [Ed|[Ed|Ed]]; by rewrite Ed.
    - exfalso. apply Ht. by left.
    - destruct (ts !! i) as [t|] eqn:Et; [|by left].
      pose proof (at_task_of name (Sys w c ts a rs) i t Ha Et) as [_ [_ Hok]]. apply task_ok_jid in Hok as [_ Hrun].
      rewrite run_bind. unfold task_step. destruct (t_phase t) eqn:Ep.
      + destruct (is_cancelled (t_job t)) eqn:Ec; [|by left]. unfold is_cancelled in Ec. by rewrite Hrun in Ec.
      + by left.
      + by left.
      + rewrite run_bind, run_task_tail. unfold do_tail.
        destruct (judge prof sched clock (reads w) (t_job t) u) as [k1 v] eqn:Ej.
        pose proof (judge_spec prof sched clock _ _ _ _ _ Ej) as [_ Hv]. cbn [fst snd].
        destruct v as [nj|nj|nj|]; cbn [run fst sw do_verdict].
        * rewrite qlist_do_re_enqueue. cbn. destruct Hv as [_ Hv]. rewrite Hv, Hrun. cbn. eauto.
        * rewrite qlist_do_fail. by left.
        * rewrite qlist_do_finish. by left.
        * by left.
  Qed.

  (** *** Progress *)
  Lemma behind_step (s : sys) e id j :
    all_at s → ok_event s e → at_ s id (PQueued j) → (∀ k, (reads (sw s) <= k)%nat → due j (clock k)) →
    (is_tick e → (length (qlist (sw s) Queued) <= 20)%nat) →
    at_ (step s e).1 id (PQueued j) →
    (behind id (qlist (sw (step s e).1) Queued) +
      (if match e with EvTick => true | _ => false end then free_slots name s else 0)
     <= behind id (qlist (sw s) Queued))%nat.
  Proof.
    intros Ha Hok Hp Hdue Hlen Hp'.
    destruct (life_step prof sched name clock s e Hok Ha) as [Ha' _].
    pose proof (all_at_nodup name _ Ha) as Hnd. pose proof (all_at_nodup name _ Ha') as Hnd'.
    assert (id ∈ qlist (sw s) Queued) as Hin. { apply cnt_pos. destruct Hp as [(_ & Hc & _) _]. lia. }
    assert (id ∈ qlist (sw (step s e).1) Queued) as Hin'. { apply cnt_pos. destruct Hp' as [(_ & Hc & _) _]. lia. }
    assert (stored (sw s) id = Some j) as Hs by (by destruct Hp as [(Hc & _) _]).
    assert (∀ k, (reads (sw s) <= k)%nat → is_ready j (clock k) = true) as Hrdy.
    { intros k Hk. by apply due_ready, Hdue. }
    assert (is_tick e ∨ ¬ is_tick e) as [Ht|Ht].
    { destruct e; (by left; left) || (by left; right) || (right; intros [?|?]; done). }
    - specialize (Hlen Ht).
      assert (∀ max, id ∈ qlist (do_pick (M := M) prof name clock max (sw s)).1.1 Queued →
        (behind id (qlist (do_pick (M := M) prof name clock max (sw s)).1.1 Queued) + (max - length (qlist (sw s) Running))
          <= behind id (qlist (sw s) Queued))%nat) as Hpick.
      { intros max. apply (pick_short max (sw s) id j); try done. exact (all_at_keyed name _ Ha). }
      destruct (alive s) eqn:Eal; destruct Ht as [->| ->].
      + revert Hin'. rewrite (step_tick prof sched name clock s Eal). cbv zeta. unfold free_slots. rewrite Eal.
        destruct (do_pick _ _ _ _ _).2; cbn [sw]; apply Hpick.
      + unfold sys_step. rewrite Eal. cbn. lia.
      + unfold sys_step, free_slots. rewrite Eal. cbn. lia.
      + revert Hin'. unfold sys_step. rewrite Eal. unfold commit. cbn [ev_prog].
        rewrite run_bind, run_process_jobs. cbv zeta. specialize (Hpick (max_processing_jobs wq_config_default)).
        destruct (do_pick prof name clock (max_processing_jobs wq_config_default) (sw s)) as [[w' js] o]. cbn [fst snd] in *.
        destruct o; cbn [run fst sw]; intros Hin'; specialize (Hpick Hin'); lia.
    - assert (match e with EvTick => true | _ => false end = false) as ->.
      { destruct e; try done. exfalso. apply Ht. by left. }
      rewrite Nat.add_0_r.
      destruct (list_effect s e Ha) as [->|[[x E]|[x E]]]; [by destruct e|done|done| |].
      + rewrite E in *. cbn [behind]. destruct (String.eqb_spec x id) as [->|]; [|done].
        apply list.NoDup_cons in Hnd' as [Hn _]. done.
      + rewrite E in *. apply behind_filter; [|done]. intros ->. apply elem_of_list_filter in Hin' as [? _]. done.
  Qed.

  Lemma short_progress es (s : sys) id j :
    all_at s → ok_hist s es → at_ s id (PQueued j) → (∀ k, (reads (sw s) <= k)%nat → due j (clock k)) →
    Forall (λ e, ¬ disturbs id e) es → short_lists prof sched name clock s es →
    (∃ es1 es2, es = es1 ++ es2 ∧ id ∈ qlist (sw (go s es1)) Running) ∨
    (behind id (qlist (sw (go s es)) Queued) + offered prof sched name clock s es <= behind id (qlist (sw s) Queued))%nat ∧
    at_ (go s es) id (PQueued j).
  Proof.
    revert s. induction es as [|e es IH]; intros s Ha Hok Hp Hdue HE Hsh.
    { right. cbn. split; [lia|done]. }
    cbn in Hok. destruct Hok as [He Hok]. apply Forall_cons_1 in HE as [HEe HE]. cbn in Hsh. destruct Hsh as [Hse Hsh].
    destruct (life_step prof sched name clock s e He Ha) as [Ha' _].
    destruct (waiting_step prof sched name clock s e id j Ha He Hp HEe) as [Hp'|Hr].
    2: { left. by exists [e], es. }
    pose proof (behind_step s e id j Ha He Hp Hdue Hse Hp') as Hb.
    pose proof (rd_step prof sched name clock s e) as Hrd.
    destruct (IH (step s e).1) as [(es1 & es2 & -> & Hr)|[H1 H2]]; try done.
    { intros k Hk. apply Hdue. lia. }
    - left. by exists (e :: es1), es2.
    - right. cbn [SpecShort.offered]. rewrite go_cons. split; [lia|done].
  Qed.

  Lemma short_no_starvation es0 es id j :
    let s := after prof sched name clock es0 in
    ok_hist initial (es0 ++ es) → id ∈ qlist (sw s) Queued → stored (sw s) id = Some j →
    (∀ k, (reads (sw s) <= k)%nat → due j (clock k)) → Forall (λ e, ¬ submits id e ∧ e ≠ EvCancel id) es →
    short_lists prof sched name clock s es →
    (behind id (qlist (sw s) Queued) < offered prof sched name clock s es)%nat →
    ∃ es1 es2, es = es1 ++ es2 ∧ id ∈ qlist (sw (after prof sched name clock (es0 ++ es1))) Running.
  Proof.
    cbv zeta. intros Hok Hin Hs Hdue HE Hsh Hoff. apply ok_hist_app in Hok as [Hok0 Hok].
    pose proof (all_at_after prof sched name clock es0 Hok0) as Ha.
    destruct (all_at_stored name _ id Ha Hin) as (j0 & Hs0 & Hp). rewrite Hs0 in Hs. injection Hs as ->.
    destruct (short_progress es _ id j Ha Hok Hp Hdue) as [(es1 & es2 & -> & Hr)|[H1 _]]; try done.
    - eapply list.Forall_impl; [exact HE|]. intros e [He1 He2] [Hd|Hd]; done.
    - exists es1, es2. split; [done|]. unfold after. by rewrite go_app.
    - unfold after in *. lia.
  Qed.
End short.
