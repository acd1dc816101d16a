(** The status lists against the stored statuses. *)
From Verif Require Import Spec JsonFacts BackendFacts WorldFacts MicroFacts LifeFacts HistFacts SubmitFacts LifeProps.

Section lists.
  Context {M : Type} `{SM : Serde M} {SO : SerdeOk M}.
  Context (prof : profile).
  Context (sched : string → option (time → option time)).
  Context (name : string).
  Context (clock : nat → time).
  Notation h := (mem_h clock).
  Notation qlist := (qlist name).
  Notation stored := (@stored M SM).
  Notation sys := (sys world M).
  Notation step := (sys_step prof sched name h).
  Notation mstep := (mstep prof sched name clock).
  Notation msteps e := (rtc (mstep e)).
  Notation at_ := (at_ name).
  Notation all_at := (all_at name).
  Notation pstep := (pstep prof sched clock).
  Notation ok_event := (@ok_event M SM).
  Notation ok_hist := (ok_hist prof sched name clock).
  Notation go := (sys_run prof sched name h).
  Notation after := (after prof sched name clock).
  Notation times_in := (times_in name).

  (** Every transition of the lists Finished, Failed and Canceled in one small step. *)
  Definition done_lists (s : sys) : Prop :=
    (∀ id j, stored (sw s) id = Some j → jstatus (ctx j) = Finished → id ∈ qlist (sw s) Finished) ∧
    (∀ id j, stored (sw s) id = Some j → jstatus (ctx j) = Failed → id ∈ qlist (sw s) Failed) ∧
    qlist (sw s) Canceled = [].

  Lemma key_id s id j : all_at s → stored (sw s) id = Some j → jid j = id.
  Proof.
    intros Ha Hs. destruct (Ha id) as [p Hp]. destruct p; cbn in Hp; destruct_and?; try congruence.
    unfold tid in *. congruence.
  Qed.

  Lemma done_lists_frame s s' :
    done_lists s →
    (∀ id j, stored (sw s') id = Some j → jstatus (ctx j) = Finished →
       id ∈ qlist (sw s') Finished ∨ (∃ j0, stored (sw s) id = Some j0 ∧ jstatus (ctx j0) = Finished)) →
    (∀ id j, stored (sw s') id = Some j → jstatus (ctx j) = Failed →
       id ∈ qlist (sw s') Failed ∨ (∃ j0, stored (sw s) id = Some j0 ∧ jstatus (ctx j0) = Failed)) →
    qlist (sw s) Finished ⊆ qlist (sw s') Finished → qlist (sw s) Failed ⊆ qlist (sw s') Failed →
    qlist (sw s') Canceled = qlist (sw s) Canceled → done_lists s'.
  Proof.
    intros (H1 & H2 & H3) A B C D E. split; [|split; [|congruence]].
    - intros id j Hs Hj. destruct (A id j Hs Hj) as [?|(j0 & Hs0 & Hj0)]; [done|]. by eapply C, H1.
    - intros id j Hs Hj. destruct (B id j Hs Hj) as [?|(j0 & Hs0 & Hj0)]; [done|]. by eapply D, H2.
  Qed.

  Lemma done_lists_mstep e s s' :
    all_at s → ok_event s e → done_lists s → mstep e s s' → done_lists s'.
  Proof.
    intros Ha Hok Hdl Hm.
    destruct Hm as [w w' c ts a rs Hst Hq Hk Hl|w c c' ts rs|w c rs|w w1 c ts rs j ec Hev Hw|
        w c ts rs j ec ex Hev Hs Ho Hrun Hre|w c ts rs id j Hev Hs Hqd|w c ts rs id j Hev Hs Hd
        |w c ts rs l id j He El Hs Hr Hlim j'|w c ts rs i t u Hev Hi Hph Hcan|w c ts rs i t u Hev Hi Hph
        |w c ts rs i t u Hev Hi Hph|w c ts rs i t u Hev Hi Hph
        |w c ts rs i t u Hev Hi Hph|w c c' ts a rs]; try subst e.
    - destruct Hdl as (H1 & H2 & H3). cbn [sw] in *. unfold done_lists. cbn [sw].
      split; [|split].
      + intros id j Hs Hj. rewrite (Hq Finished). rewrite Hst in Hs. eauto.
      + intros id j Hs Hj. rewrite (Hq Failed). rewrite Hst in Hs. eauto.
      + pose proof (Hq Canceled) as E. rewrite H3 in E. by apply Permutation_nil_r in E.
    - done.
    - done.
    - assert (∀ id, id ≠ jid j → stored w1 id = stored w id) as Hw1.
      { intros id Hne. destruct (stored w (jid j)); [|by subst]. destruct Hw as (_ & _ & ->).
        destruct (override_data ec); [|done]. rewrite stored_put. by rewrite bool_decide_false. }
      assert (∀ st, qlist w1 st = qlist w st) as Hq1.
      { intros st. destruct (stored w (jid j)); [|by subst]. destruct Hw as (_ & _ & ->).
        destruct (override_data ec); [|done]. by rewrite qlist_put. }
      apply (done_lists_frame (Sys w c ts true rs)); [done| | | | |]; cbn [sw].
      + intros id j1. rewrite stored_do_enqueue. destruct (bool_decide_reflect (id = jid j)).
        * intros [= <-]. done.
        * rewrite Hw1 by done. eauto.
      + intros id j1. rewrite stored_do_enqueue. destruct (bool_decide_reflect (id = jid j)).
        * intros [= <-]. done.
        * rewrite Hw1 by done. eauto.
      + rewrite qlist_do_enqueue, bool_decide_false by done. by rewrite Hq1.
      + rewrite qlist_do_enqueue, bool_decide_false by done. by rewrite Hq1.
      + rewrite qlist_do_enqueue, bool_decide_false by done. by rewrite Hq1.
    - assert (jstatus (ctx j) = Queued ∨ jstatus (ctx j) = jstatus (ctx ex)) as Hj.
      { destruct Hok as [?|(ex' & Hs' & E)]; [by left|]. right. cbn [sw] in Hs'. congruence. }
      apply (done_lists_frame (Sys w c ts true rs)); [done| | | | |]; cbn [sw]; rewrite ?qlist_put; try done.
      + intros id j1. rewrite stored_put. destruct (bool_decide_reflect (id = jid j)) as [->|].
        * intros [= <-] E. right. exists ex. split; [done|]. cbn in E. destruct Hj; congruence.
        * eauto.
      + intros id j1. rewrite stored_put. destruct (bool_decide_reflect (id = jid j)) as [->|].
        * intros [= <-] E. right. exists ex. split; [done|]. cbn in E. destruct Hj; congruence.
        * eauto.
    - apply (done_lists_frame (Sys w c ts true rs)); [done| | | | |]; cbn [sw];
        rewrite ?qlist_rem, ?bool_decide_false, ?qlist_save by done; try done.
      + intros id' j1. rewrite stored_rem, stored_save. destruct (bool_decide _).
        * intros [= <-]. done.
        * eauto.
      + intros id' j1. rewrite stored_rem, stored_save. destruct (bool_decide _).
        * intros [= <-]. done.
        * eauto.
    - pose proof (key_id _ _ _ Ha Hs) as Hid. destruct Hdl as (H1 & H2 & H3). cbn [sw] in *.
      assert (∀ st, st ≠ Queued → qlist (do_re_enqueue name clock w j) st =
        if bool_decide (st = jstatus (ctx j)) then filter (λ x, x ≠ id) (qlist w st) else qlist w st) as HQ.
      { intros st Hne. unfold do_re_enqueue. rewrite qlist_push, bool_decide_false by done.
        rewrite qlist_save, qlist_tick, qlist_rem, Hid. by destruct (bool_decide_reflect (st = jstatus (ctx j))) as [->|]. }
      assert (∀ st id', st ≠ Queued → id' ≠ id → id' ∈ qlist w st → id' ∈ qlist (do_re_enqueue name clock w j) st) as HK.
      { intros st id' Hne Hn Hin. rewrite HQ by done. destruct (bool_decide _); [|done].
        by apply elem_of_list_filter. }
      split; [|split]; cbn [sw].
      + intros id' j1. rewrite stored_do_re_enqueue, Hid. destruct (bool_decide_reflect (id' = id)) as [->|Hn].
        * intros [= <-]. done.
        * intros. by apply HK; [..|eapply H1].
      + intros id' j1. rewrite stored_do_re_enqueue, Hid. destruct (bool_decide_reflect (id' = id)) as [->|Hn].
        * intros [= <-]. done.
        * intros. by apply HK; [..|eapply H2].
      + rewrite HQ, H3 by done. by destruct (bool_decide _).
    - assert (qlist (w_save (w_tick (w_tick w)) j') Queued = l ++ [id]) as El' by by rewrite qlist_save.
      pose proof (λ st, qlist_pick name _ l id st El') as HQ.
      apply (done_lists_frame (Sys w c ts true rs)); [done| | | | |]; cbn [sw];
        rewrite ?HQ, ?qlist_save; try done.
      + intros id' j1. rewrite stored_move, stored_save. destruct (bool_decide _).
        * intros [= <-]. done.
        * eauto.
      + intros id' j1. rewrite stored_move, stored_save. destruct (bool_decide _).
        * intros [= <-]. done.
        * eauto.
    - exfalso. pose proof (at_task_of _ _ _ _ Ha Hi) as Ht. cbn in Ht. destruct Ht as (_ & _ & Ht).
      apply task_ok_jid in Ht as [_ Ht]. unfold is_cancelled in Hcan. by rewrite Ht in Hcan.
    - done.
    - done.
    - done.
    - pose proof (at_task_of _ _ _ _ Ha Hi) as Ht. cbn in Ht. destruct Ht as (_ & _ & Ht).
      apply task_ok_jid in Ht as [Htid Hrun].
      unfold do_tail, do_verdict. destruct (judge prof sched clock (reads w) (t_job t) u) as [k v] eqn:Ej.
      apply judge_spec in Ej as [_ Hv]. cbn [fst snd].
      assert (∀ st, qlist (w_reads w k) st = qlist w st) as Hw by done.
      assert (∀ id, stored (w_reads w k) id = stored w id) as Hsw by done.
      destruct v as [nj|nj|nj|].
      + destruct Hv as [_ Hv]. assert (jstatus (ctx nj) = Running) as Hv' by congruence.
        apply (done_lists_frame (Sys w c ts true rs)); [done| | | | |]; cbn [sw];
          unfold do_re_enqueue; rewrite ?qlist_push, ?bool_decide_false, ?qlist_save, ?qlist_tick, ?qlist_rem, 
            ?Hv', ?bool_decide_false, ?Hw by done; try done.
        * intros id' j1. rewrite stored_push, stored_save, stored_tick, stored_rem, Hsw. destruct (bool_decide _).
          -- intros [= <-]. done.
          -- eauto.
        * intros id' j1. rewrite stored_push, stored_save, stored_tick, stored_rem, Hsw. destruct (bool_decide _).
          -- intros [= <-]. done.
          -- eauto.
      + unfold do_fail. apply (done_lists_frame (Sys w c ts true rs)); [done| | | | |]; cbn [sw];
          repeat first [rewrite qlist_push|rewrite qlist_rem|rewrite qlist_save|rewrite qlist_tick|rewrite Hw
                       |rewrite bool_decide_false by done|rewrite bool_decide_true by done]; try done.
        * intros id' j1. rewrite stored_push, stored_rem, stored_save, stored_tick, Hsw. destruct (bool_decide _).
          -- intros [= <-]. done.
          -- eauto.
        * intros id' j1. rewrite stored_push, stored_rem, stored_save, stored_tick, Hsw.
          destruct (bool_decide_reflect (id' = jid (fai nj (now_ms clock (w_reads w k))))) as [->|].
          -- intros _ _. left. set_solver.
          -- eauto.
        * set_solver.
      + unfold do_finish. apply (done_lists_frame (Sys w c ts true rs)); [done| | | | |]; cbn [sw];
          repeat first [rewrite qlist_push|rewrite qlist_rem|rewrite qlist_save|rewrite qlist_tick|rewrite Hw
                       |rewrite bool_decide_false by done|rewrite bool_decide_true by done]; try done.
        * intros id' j1. rewrite stored_push, stored_save, stored_tick, stored_rem, Hsw.
          destruct (bool_decide_reflect (id' = jid (fin nj (now_ms clock (w_reads w k))))) as [->|].
          -- intros _ _. left. set_solver.
          -- eauto.
        * intros id' j1. rewrite stored_push, stored_save, stored_tick, stored_rem, Hsw. destruct (bool_decide _).
          -- intros [= <-]. done.
          -- eauto.
        * set_solver.
      + done.
    - done.
  Qed.

  Lemma done_lists_after es : ok_hist initial es → done_lists (after es).
  Proof.
    induction es as [|e es IH] using rev_ind; intros Hok.
    { split; [|split]; done. }
    apply ok_hist_app in Hok as [Hok [He _]]. specialize (IH Hok).
    change (sys_run prof sched name h initial es) with (after es) in He.
    pose proof (all_at_after prof sched name clock es Hok) as Ha.
    assert (after (es ++ [e]) = (step (after es) e).1) as -> by (unfold after; apply go_snoc).
    destruct (match e with EvEnqueue _ _ => true | _ => false end) eqn:Ee.
    - destruct e; try done. eapply done_lists_mstep; [exact Ha|exact He|done|apply micro_enqueue].
    - assert (msteps e (after es) (step (after es) e).1) as Hm by (destruct e; apply sys_step_micro; done).
      assert (∀ s : sys, ok_event s e) as He' by (intros s; by destruct e).
      revert Hm IH Ha. generalize (after es), (step (after es) e).1. clear -He' SO. intros s s' Hm.
      induction Hm as [|a b c Hab Hbc IH']; [done|]. intros Hd Ha. apply IH'.
      + by eapply done_lists_mstep.
      + eapply mstep_all_at; [done|exact (He' a)|done].
  Qed.

  Lemma lists_agree es id :
    ok_hist initial es → Forall (λ e, ¬ overwrites_only e) es →
    (id ∈ qlist (sw (after es)) Queued ↔ status_of (after es) id = Some Queued) ∧
    (id ∈ qlist (sw (after es)) Running ↔ status_of (after es) id = Some Running).
  Proof.
    intros Hok HE.
    destruct (life_ind_after prof sched name clock (λ e, ¬ overwrites_only e)
      (λ _ p _, match p with PLimbo _ => False | _ => True end) id es) as (p & Hp & Hl); try done.
    { intros e k p new k' p' rs He Hj Hst. destruct Hst; cbn in *; subst; try done. by destruct He. }
    destruct (at_pstat _ _ _ _ Hp) as [-> Hd]. rewrite <-!cnt_pos.
    destruct p; cbn in Hp, Hl, Hd |- *; destruct_and?; try done;
      repeat match goal with H : cnt _ _ = _ |- _ => rewrite H end;
      (split; split; intros; try lia; try done).
    - unfold is_done in Hd. exfalso. by destruct (jstatus (ctx j)).
    - unfold is_done in Hd. exfalso. by destruct (jstatus (ctx j)).
  Qed.
  (** In general: one direction. *)
  Lemma lists_sound es id :
    ok_hist initial es →
    (id ∈ qlist (sw (after es)) Queued → status_of (after es) id = Some Queued) ∧
    (id ∈ qlist (sw (after es)) Running ↔ status_of (after es) id = Some Running) ∧
    (status_of (after es) id = Some Finished → id ∈ qlist (sw (after es)) Finished) ∧
    (status_of (after es) id = Some Failed → id ∈ qlist (sw (after es)) Failed) ∧
    id ∉ qlist (sw (after es)) Canceled.
  Proof.
    intros Hok. destruct (done_lists_after es Hok) as (H1 & H2 & H3).
    destruct (all_at_after prof sched name clock es Hok id) as [p Hp].
    split; [|split; [|split; [|split]]].
    - rewrite <-cnt_pos. destruct (at_pstat _ _ _ _ Hp) as [-> Hd].
      destruct p; cbn in Hp |- *; destruct_and?; try done; lia.
    - rewrite <-cnt_pos. destruct (at_pstat _ _ _ _ Hp) as [-> Hd].
      destruct p; cbn in Hp, Hd |- *; destruct_and?; (split; intros; try done; try lia).
      exfalso. unfold is_done in Hd. by destruct (jstatus (ctx j)).
    - unfold status_of. intros E. apply fmap_Some in E as (j & Hs & Hj). by eapply H1.
    - unfold status_of. intros E. apply fmap_Some in E as (j & Hs & Hj). by eapply H2.
    - rewrite H3. apply not_elem_of_nil.
  Qed.
End lists.
