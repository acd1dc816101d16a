(** From single small changes to whole histories: every orderly history moves an id along [pstep]s. *)
From Verif Require Import Spec JsonFacts BackendFacts WorldFacts MicroFacts LifeFacts.

Section hist.
  Context {M : Type} `{SM : Serde M} {SO : SerdeOk M}.
  Context (prof : profile).
  Context (sched : string → option (time → option time)).
  Context (name : string).
  Context (clock : nat → time).
  Notation h := (mem_h clock).
  Notation qlist := (qlist name).
  Notation stored := (@stored M SM).
  Notation sys := (sys world M).
  Notation step := (sys_step prof sched name h).
  Notation mstep := (mstep prof sched name clock).
  Notation msteps e := (rtc (mstep e)).
  Notation at_ := (at_ name).
  Notation all_at := (all_at name).
  Notation pstep := (pstep prof sched clock).
  Notation ok_event := (@ok_event M SM).
  Notation ok_hist := (ok_hist prof sched name clock).
  Notation go := (sys_run prof sched name h).
  Notation after := (after prof sched name clock).

  Inductive psteps (id : string) (e : event M) : nat → pstate → list (job M) → nat → pstate → Prop :=
  | ps_refl k p : psteps id e k p [] k p
  | ps_step k p n1 k1 p1 n2 k2 p2 :
      pstep id e k p n1 k1 p1 → psteps id e k1 p1 n2 k2 p2 → psteps id e k p (n1 ++ n2) k2 p2.

  Lemma psteps_one id e k p n k' p' : pstep id e k p n k' p' → psteps id e k p n k' p'.
  Proof. intros H. rewrite <-(app_nil_r n). eapply ps_step; [exact H|apply ps_refl]. Qed.

  Lemma at_fun s id p p' : at_ s id p → at_ s id p' → p = p'.
  Proof.
    intros H H'.
    assert (∀ (j : job M), is_done j = true → jstatus (ctx j) = Queued ∨ jstatus (ctx j) = Running → False) as Hd.
    { intros j Hj Hs. apply is_done_status in Hj. intuition congruence. }
    destruct p as [|j|j|t|j|j], p' as [|j'|j'|t'|j'|j']; cbn in H, H'; destruct_and?; try congruence; try lia;
      try (exfalso; eapply Hd; [eassumption|]); try (left; congruence); try (right; congruence).
  Qed.

  (** Submitting is a single small change. *)
  Lemma micro_enqueue s j ec : mstep (EvEnqueue j ec) s (step s (EvEnqueue j ec)).1.
  Proof.
    destruct s as [w c ts a rs]. unfold sys_step. cbn [alive]. destruct a; [|apply m_refl].
    unfold commit. cbn [ev_prog cfg tasks sw runs].
    rewrite run_bind, run_run_with_config. cbn [run fst]. rewrite app_nil_r.
    destruct (stored w (jid j)) as [ex|] eqn:Ex.
    - destruct (re_run ec && is_done ex) eqn:Er.
      + apply andb_true_iff in Er as [Er Ed].
        assert (is_running ex = false) as Hrun.
        { unfold is_running, is_done in *. destruct (jstatus (ctx ex)); done. }
        assert (do_run name clock w j ec =
          do_enqueue name clock (if override_data ec then w_put w j else w) j) as ->.
        { unfold do_run. rewrite Ex, Er, Ed, Hrun. cbn. by destruct (override_data ec). }
        eapply m_submit; [done|]. rewrite Ex. done.
      + destruct (override_data ec && negb (is_running ex)) eqn:Eo.
        * assert (do_run name clock w j ec = w_put w j) as ->.
          { unfold do_run. by rewrite Ex, Eo, Er. }
          apply andb_true_iff in Eo as [Eo Hr]. apply negb_true_iff in Hr.
          eapply m_override; eauto.
        * assert (do_run name clock w j ec = w) as ->.
          { unfold do_run. by rewrite Ex, Eo, Er. }
          apply m_refl.
    - assert (do_run name clock w j ec = do_enqueue name clock w j) as ->.
      { unfold do_run. by rewrite Ex. }
      eapply m_submit; [done|]. by rewrite Ex.
  Qed.

  Lemma mstep_all_at s e s' : all_at s → ok_event s e → mstep e s s' → all_at s'.
  Proof.
    intros Ha Hok Hm id. destruct (Ha id) as [p Hp].
    edestruct (life_mstep prof sched name clock s e s' Ha Hok Hm id p Hp) as (p' & n & H & _). eauto.
  Qed.

  Lemma life_msteps s e s' :
    (∀ s : sys, ok_event s e) → msteps e s s' → all_at s →
    all_at s' ∧ ∀ id p, at_ s id p → ∃ p' new, at_ s' id p' ∧
      psteps id e (reads (sw s)) p new (reads (sw s')) p' ∧ runs_of id s' = runs_of id s ++ new.
  Proof.
    intros Hok Hm. induction Hm as [s|s s1 s' Hm Hms IH]; intros Ha.
    { split; [done|]. intros id p Hp. exists p, []. split; [done|]. split; [apply ps_refl|]. by rewrite app_nil_r. }
    specialize (IH (mstep_all_at _ _ _ Ha (Hok s) Hm)) as [Ha' IH]. split; [done|].
    intros id p Hp.
    edestruct (life_mstep prof sched name clock s e s1 Ha (Hok s) Hm id p Hp) as (p1 & n1 & H1 & H2 & H3).
    destruct (IH id p1 H1) as (p2 & n2 & H4 & H5 & H6).
    exists p2, (n1 ++ n2). split; [done|]. split; [by eapply ps_step|]. by rewrite H6, H3, app_assoc.
  Qed.

  Lemma life_step s e :
    ok_event s e → all_at s →
    all_at (step s e).1 ∧ ∀ id p, at_ s id p → ∃ p' new, at_ (step s e).1 id p' ∧
      psteps id e (reads (sw s)) p new (reads (sw (step s e).1)) p' ∧
      runs_of id (step s e).1 = runs_of id s ++ new.
  Proof.
    intros Hok Ha.
    destruct (match e with EvEnqueue _ _ => true | _ => false end) eqn:Ee.
    - destruct e; try done. pose proof (micro_enqueue s j c) as Hm.
      split; [by eapply mstep_all_at|]. intros id p Hp.
      edestruct (life_mstep prof sched name clock s _ _ Ha Hok Hm id p Hp) as (p1 & n1 & H1 & H2 & H3).
      exists p1, n1. split; [done|]. split; [by apply psteps_one|done].
    - apply life_msteps; [|apply sys_step_micro; by destruct e|done].
      intros s'. by destruct e.
  Qed.

  Lemma all_at_initial : all_at (initial : sys).
  Proof. intros id. exists PAbsent. cbn. done. Qed.

  Lemma go_snoc s es e : go s (es ++ [e]) = (step (go s es) e).1.
  Proof. unfold sys_run. by rewrite fold_left_app. Qed.
  Lemma go_cons s e es : go s (e :: es) = go (step s e).1 es.
  Proof. done. Qed.
  Lemma go_app s es es' : go s (es ++ es') = go (go s es) es'.
  Proof. unfold sys_run. by rewrite fold_left_app. Qed.

  Lemma ok_hist_app s es es' : ok_hist s (es ++ es') ↔ ok_hist s es ∧ ok_hist (go s es) es'.
  Proof.
    revert s; induction es as [|e es IH]; intros s; cbn; [tauto|]. rewrite IH. cbn. tauto.
  Qed.

  Lemma all_at_go s es : all_at s → ok_hist s es → all_at (go s es).
  Proof.
    revert s; induction es as [|e es IH]; intros s Ha; cbn; [done|]. intros [He Hes].
    apply IH; [|done]. by apply life_step.
  Qed.
  Lemma all_at_after es : ok_hist initial es → all_at (after es).
  Proof. apply all_at_go, all_at_initial. Qed.

  (** Invariants of one id along a history; [E] restricts the events of the history. *)
  Lemma life_ind (E : event M → Prop) (J : nat → pstate → list (job M) → Prop) id s es p :
    (∀ e k p new k' p' rs, E e → J k p rs → pstep id e k p new k' p' → J k' p' (rs ++ new)) →
    all_at s → ok_hist s es → Forall E es → at_ s id p → J (reads (sw s)) p (runs_of id s) →
    ∃ p', at_ (go s es) id p' ∧ J (reads (sw (go s es))) p' (runs_of id (go s es)).
  Proof.
    intros HJ. revert s p. induction es as [|e es IH]; intros s p Ha Hok HE Hp Hj; [by exists p|].
    cbn in Hok. destruct Hok as [He Hok]. apply Forall_cons_1 in HE as [HEe HE].
    destruct (life_step s e He Ha) as [Ha' Hs]. destruct (Hs id p Hp) as (p' & new & Hp' & Hps & Hr).
    rewrite go_cons. eapply IH; try done. rewrite Hr.
    clear -HJ HEe Hps Hj. revert Hj. generalize (runs_of id s) as rs.
    induction Hps as [k p|k p n1 k1 p1 n2 k2 p2 H1 H2 IH2]; intros rs Hj; [by rewrite app_nil_r|].
    rewrite app_assoc. apply IH2. by eapply HJ.
  Qed.

  (** The same from the empty backend. *)
  Lemma life_ind_after (E : event M → Prop) (J : nat → pstate → list (job M) → Prop) id es :
    (∀ e k p new k' p' rs, E e → J k p rs → pstep id e k p new k' p' → J k' p' (rs ++ new)) →
    J 0%nat PAbsent [] → ok_hist initial es → Forall E es →
    ∃ p', at_ (after es) id p' ∧ J (reads (sw (after es))) p' (runs_of id (after es)).
  Proof.
    intros HJ H0 Hok HE. eapply (life_ind E J id initial es PAbsent); try done. apply all_at_initial.
  Qed.

  (** Events that need no look at the state. *)
  Lemma plain_ok s es : Forall plain_event es → ok_hist s es.
  Proof.
    intros H. revert s. induction H as [|e es He Hes IH]; intros s; [done|].
    cbn. split; [|apply IH]. destruct e; try done. by left.
  Qed.
End hist.
