(** Every step of the actor on the InMemory backend (crashes inside a handler excepted) is a sequence
    of a few kinds of small changes. *)
From Verif Require Import Spec JsonFacts BackendFacts WorldFacts.

Section micro.
  Context {M : Type} `{SM : Serde M}.
  Context (prof : profile).
  Context (sched : string → option (time → option time)).
  Context (name : string).
  Context (clock : nat → time).
  Notation h := (mem_h clock).
  Notation qlist := (qlist name).
  Notation stored := (@stored M SM).
  Notation sys := (sys world M).
  Notation sys_step := (sys_step prof sched name h).

  Definition bump (j : job M) : job M := set_ctx j (set_run_count (ctx j) (S (run_count (ctx j)))).
  Definition is_tick (e : event M) : Prop := e = EvTick ∨ e = EvStart.

  Inductive mstep (e : event M) : sys → sys → Prop :=
  | m_idle w w' c ts a rs :
      (∀ id, stored w' id = stored w id) → (∀ s, qlist w' s ≡ₚ qlist w s) →
      (reads w <= reads w')%nat → log w' = log w →
      mstep e (Sys w c ts a rs) (Sys w' c ts a rs)
  | m_config w c c' ts rs :
      e = EvConfig c' → mstep e (Sys w c ts true rs) (Sys w c' ts true rs)
  | m_start w c rs :
      e = EvStart → mstep e (Sys w c [] false rs) (Sys w wq_config_default [] true rs)
  | m_submit w w1 c ts rs j ec :
      e = EvEnqueue j ec →
      match stored w (jid j) with
      | None => w1 = w
      | Some ex => is_done ex = true ∧ re_run ec = true ∧
                   w1 = if override_data ec then w_put w j else w
      end →
      mstep e (Sys w c ts true rs) (Sys (do_enqueue name clock w1 j) c ts true rs)
  | m_override w c ts rs j ec ex :
      e = EvEnqueue j ec → stored w (jid j) = Some ex →
      override_data ec = true → is_running ex = false → re_run ec && is_done ex = false →
      mstep e (Sys w c ts true rs) (Sys (w_put w j) c ts true rs)
  | m_cancel w c ts rs id j :
      e = EvCancel id → stored w id = Some j → is_queued j = true →
      mstep e (Sys w c ts true rs)
              (Sys (w_rem name (w_save (w_tick w) (can j (now_ms clock w))) Queued id) c ts true rs)
  | m_retry w c ts rs id j :
      e = EvRetry id → stored w id = Some j → is_done j = true →
      mstep e (Sys w c ts true rs) (Sys (do_re_enqueue name clock w j) c ts true rs)
  | m_pick w c ts rs l id j :
      is_tick e → qlist w Queued = l ++ [id] → stored w id = Some j →
      is_ready j (clock (reads w)) = true →
      (length (qlist w Running) < max_processing_jobs c)%nat →
      let j' := prc j (now_ms clock (w_tick w)) in
      mstep e (Sys w c ts true rs)
              (Sys (w_move name (w_save (w_tick (w_tick w)) j') Queued Running) c
                   (ts ++ [Task j' j' Spawned]) true rs)
  | m_drop w c ts rs i t u :
      e = EvTask i u → ts !! i = Some t → t_phase t = Spawned → is_cancelled (t_job t) = true →
      mstep e (Sys w c ts true rs)
              (Sys (w_push name w Canceled (jid (t_job t))) c (delete i ts) true rs)
  | m_hook w c ts rs i t u :
      e = EvTask i u → ts !! i = Some t → t_phase t = Spawned → is_cancelled (t_job t) = false →
      mstep e (Sys w c ts true rs)
              (Sys (w_send w (RunHook (jid (t_job t)) true)) c
                   (<[i := Task (t_orig t) (t_job t) Hooked]> ts) true rs)
  | m_run w c ts rs i t u :
      e = EvTask i u → ts !! i = Some t → t_phase t = Hooked →
      mstep e (Sys w c ts true rs)
              (Sys w c (<[i := Task (t_orig t) (bump (t_job t)) InUser]> ts) true
                   (rs ++ [bump (t_job t)]))
  | m_return w c ts rs i t u :
      e = EvTask i u → ts !! i = Some t → t_phase t = InUser →
      mstep e (Sys w c ts true rs)
              (Sys (w_send w (RunHook (jid (t_job t)) true)) c
                   (<[i := Task (t_orig t) (set_data (t_job t) (ur_data u)) AfterHook]> ts) true rs)
  | m_tail w c ts rs i t u :
      e = EvTask i u → ts !! i = Some t → t_phase t = AfterHook →
      mstep e (Sys w c ts true rs)
              (Sys (do_tail prof sched name clock w (t_job t) u) c (delete i ts) true rs)
  | m_die w c c' ts a rs :
      mstep e (Sys w c ts a rs) (Sys w c' [] false rs).

  Notation msteps e := (rtc (mstep e)).

  Lemma m_refl e s : mstep e s s.
  Proof. destruct s. apply m_idle; auto. Qed.

  Definition spawn (j : job M) : task M := Task j j Spawned.

  (** *** Picking *)
  Lemma micro_rotate e w c ts a rs l id w1 :
    qlist w Queued = l ++ [id] → (w1 = w ∨ w1 = w_tick w) →
    mstep e (Sys w c ts a rs) (Sys (w_move name w1 Queued Queued) c ts a rs).
  Proof.
    intros E Hw1.
    assert (∀ s, qlist w1 s = qlist w s) as Hq by (destruct Hw1; subst; done).
    apply m_idle; auto.
    - intros k. rewrite stored_move. destruct Hw1; subst; done.
    - intros s. rewrite (qlist_rotate name w1 l id) by by rewrite Hq.
      destruct (bool_decide_reflect (s = Queued)) as [->|]; [|by rewrite Hq].
      rewrite E. by rewrite Permutation_app_comm.
    - destruct Hw1; subst; cbn; lia.
    - destruct Hw1; subst; done.
  Qed.

  Lemma micro_scan_batch e c ts rs total ids rest ready w n0 :
    is_tick e → rev (qlist w Queued) = ids ++ rest →
    length (qlist w Running) = (n0 + length ready)%nat → (n0 + total = max_processing_jobs c)%nat →
    let r := scan_batch name clock total ids ready w in
    msteps e (Sys w c (ts ++ map spawn ready) true rs) (Sys r.1 c (ts ++ map spawn r.2) true rs) ∧
    length (qlist r.1 Running) = (n0 + length r.2)%nat.
  Proof.
    intros He. revert ready w rest. induction ids as [|id ids IH]; intros ready w rest E Hn Ht; cbn [scan_batch].
    { cbn. split; [apply rtc_refl|done]. }
    assert (qlist w Queued = (rev rest ++ rev ids) ++ [id]) as EQ.
    { rewrite <-(rev_involutive (qlist w Queued)), E. cbn. by rewrite rev_app_distr. }
    assert (∀ w1, w1 = w ∨ w1 = w_tick w →
      rev (qlist (w_move name w1 Queued Queued) Queued) = ids ++ (rest ++ [id]) ∧
      length (qlist (w_move name w1 Queued Queued) Running) = length (qlist w Running)) as Hrot.
    { intros w1 Hw1. assert (∀ s, qlist w1 s = qlist w s) as Hq by (destruct Hw1; subst; done).
      rewrite !(qlist_rotate name w1 _ id) by by rewrite Hq.
      change (bool_decide (Queued = Queued)) with true. change (bool_decide (Running = Queued)) with false.
      cbn [rev]. rewrite rev_app_distr, !rev_involutive, <-app_assoc. by rewrite Hq. }
    destruct (stored w id) as [j|] eqn:Es.
    - destruct (_ && _ && _) eqn:Eb.
      + apply andb_true_iff in Eb as [Eb _]. apply andb_true_iff in Eb as [Er El].
        apply Nat.ltb_lt in El.
        set (j' := prc j (now_ms clock (w_tick w))).
        set (w' := w_move name (w_save (w_tick (w_tick w)) j') Queued Running).
        assert (qlist (w_save (w_tick (w_tick w)) j') Queued = (rev rest ++ rev ids) ++ [id]) as EQ'.
        { by rewrite qlist_save, !qlist_tick. }
        edestruct (IH (ready ++ [j']) w' rest) as [H1 H2].
        * unfold w'. rewrite (qlist_pick name _ _ _ _ EQ'). by rewrite rev_app_distr, !rev_involutive.
        * unfold w'. rewrite (qlist_pick name _ _ _ _ EQ'). cbn [length].
          rewrite qlist_save, !qlist_tick, app_length. cbn. lia.
        * done.
        * split; [|done]. eapply rtc_l; [|exact H1].
          rewrite map_app, app_assoc. cbn [map].
          eapply m_pick; try done. lia.
      + destruct (Hrot (w_tick w)) as [H1 H2]; [auto|].
        edestruct (IH ready (w_move name (w_tick w) Queued Queued)) as [H3 H4]; [done|lia|done|].
        split; [|done]. eapply rtc_l; [|exact H3]. eapply micro_rotate; eauto.
    - destruct (Hrot w) as [H1 H2]; [auto|].
      edestruct (IH ready (w_move name w Queued Queued)) as [H3 H4]; [done|lia|done|].
      split; [|done]. eapply rtc_l; [|exact H3]. eapply micro_rotate; eauto.
  Qed.

  Lemma micro_scan_loop e c ts rs fuel total ready cursor w n0 :
    is_tick e →
    length (qlist w Running) = (n0 + length ready)%nat → (n0 + total = max_processing_jobs c)%nat →
    let r := scan_loop prof name clock fuel total ready cursor w in
    msteps e (Sys w c (ts ++ map spawn ready) true rs) (Sys r.1.1 c (ts ++ map spawn r.1.2) true rs).
  Proof.
    intros He. revert ready cursor w. induction fuel as [|fuel IH]; intros ready cursor w Hn Ht; cbn [scan_loop].
    { apply rtc_refl. }
    destruct (i32_norm prof _) as [c'|]; [|apply rtc_refl].
    pose proof (micro_scan_batch e c ts rs total (take BATCH (rev (qlist w Queued)))
      (drop BATCH (rev (qlist w Queued))) ready w n0 He) as Hb.
    rewrite take_drop in Hb. specialize (Hb eq_refl Hn Ht).
    destruct (scan_batch name clock total _ ready w) as [w' ready']. cbn in Hb. destruct Hb as [H1 H2].
    destruct (total <=? length ready')%nat; [done|].
    destruct (c' <=? 0); [done|].
    etrans; [exact H1|]. by apply IH.
  Qed.

  Lemma micro_pick e c ts rs w :
    is_tick e →
    let r := do_pick prof name clock (max_processing_jobs c) w in
    msteps e (Sys w c ts true rs) (Sys r.1.1 c (ts ++ map spawn r.1.2) true rs).
  Proof.
    intros He. unfold do_pick. destruct (Nat.leb_spec (max_processing_jobs c) (length (qlist w Running))).
    - cbn. rewrite app_nil_r. apply rtc_refl.
    - pose proof (micro_scan_loop e c ts rs (S (length (qlist w Queued)))
        (max_processing_jobs c - length (qlist w Running)) []
        (wrap32 (Z.of_nat (length (qlist w Queued)))) w (length (qlist w Running)) He) as Hl.
      cbn [map] in Hl. rewrite app_nil_r in Hl. apply Hl; cbn; lia.
  Qed.

  Lemma run_process_jobs c ts w :
    run h (process_jobs prof name c ts) w =
    (let r := do_pick prof name clock (max_processing_jobs c) w in
     (r.1.1, match r.2 with
             | Done _ => Done (ts ++ map spawn r.1.2)
             | Panicked => Panicked | Diverged => Diverged end)).
  Proof.
    unfold process_jobs. rewrite run_bind, run_pick. unfold with_ready. cbv zeta.
    destruct (do_pick prof name clock (max_processing_jobs c) w) as [[w' js] o]. cbn [fst snd].
    destruct o; done.
  Qed.

  (** *** All events *)
  Definition no_crash_in (e : event M) : bool := match e with EvCrashIn _ _ => false | _ => true end.

  Lemma micro_commit s e :
    alive s = true →
    match e with EvStart | EvCrashIn _ _ | EvCrash | EvPanic => False | _ => True end →
    msteps e s (commit prof sched name h s e).1.
  Proof.
    destruct s as [w c ts a rs]. cbn. intros -> He. unfold commit. cbn [cfg tasks sw runs].
    destruct e; cbn [ev_prog]; try done.
    - (* Enqueue *)
      rewrite run_bind, run_run_with_config. cbn [run fst]. rewrite app_nil_r.
      destruct (stored w (jid j)) as [ex|] eqn:Ex.
      + destruct (re_run c0 && is_done ex) eqn:Er.
        * apply rtc_once. apply andb_true_iff in Er as [Er Ed].
          assert (is_running ex = false) as Hrun.
          { unfold is_running, is_done in *. destruct (jstatus (ctx ex)); done. }
          assert (do_run name clock w j c0 =
            do_enqueue name clock (if override_data c0 then w_put w j else w) j) as ->.
          { unfold do_run. rewrite Ex, Er, Ed, Hrun. cbn. by destruct (override_data c0). }
          eapply m_submit; [done|]. rewrite Ex. done.
        * destruct (override_data c0 && negb (is_running ex)) eqn:Eo.
          -- apply rtc_once. assert (do_run name clock w j c0 = w_put w j) as ->.
             { unfold do_run. by rewrite Ex, Eo, Er. }
             apply andb_true_iff in Eo as [Eo Hr]. apply negb_true_iff in Hr.
             eapply m_override; eauto.
          -- assert (do_run name clock w j c0 = w) as ->.
             { unfold do_run. by rewrite Ex, Eo, Er. }
             apply rtc_refl.
      + apply rtc_once. assert (do_run name clock w j c0 = do_enqueue name clock w j) as ->.
        { unfold do_run. by rewrite Ex. }
        eapply m_submit; [done|]. by rewrite Ex.
    - rewrite run_bind, run_cancel. cbn [run fst]. rewrite app_nil_r. unfold do_cancel.
      destruct (stored w id) as [j|] eqn:Ex; [|apply rtc_refl].
      destruct (is_queued j) eqn:Eq; [|apply rtc_refl]. apply rtc_once. by eapply m_cancel.
    - rewrite run_bind. unfold get_job. rewrite run_get. cbn. rewrite app_nil_r. apply rtc_refl.
    - rewrite run_bind, run_retry. cbn [run fst]. rewrite app_nil_r. unfold do_retry.
      destruct (stored w id) as [j|] eqn:Ex; [|apply rtc_refl].
      destruct (is_done j) eqn:Eq; [|apply rtc_refl]. apply rtc_once. by eapply m_retry.
    - cbn. rewrite app_nil_r. by apply rtc_once, m_config.
    - rewrite run_bind, run_process_jobs. cbv zeta.
      pose proof (micro_pick EvTick c ts rs w (or_introl eq_refl)) as Hp.
      destruct (do_pick prof name clock (max_processing_jobs c) w) as [[w' js] o]. cbn [fst snd] in *.
      destruct o; cbn [run fst]; rewrite ?app_nil_r; [done| |];
        (eapply rtc_r; [exact Hp|apply m_die]).
    - destruct (ts !! i) as [t|] eqn:Et; [|cbn; rewrite app_nil_r; apply rtc_refl].
      rewrite run_bind. unfold task_step. destruct (t_phase t) eqn:Ep.
      + destruct (is_cancelled (t_job t)) eqn:Ec.
        * cbn. rewrite app_nil_r. apply rtc_once. by eapply m_drop.
        * cbn. rewrite app_nil_r. apply rtc_once. by eapply m_hook.
      + cbn. apply rtc_once. by eapply m_run.
      + cbn. rewrite app_nil_r. apply rtc_once. by eapply m_return.
      + rewrite run_bind, run_task_tail.
        assert (msteps (EvTask i u) (Sys w c ts true rs)
          (Sys (do_tail prof sched name clock w (t_job t) u) c (delete i ts) true rs)) as Hp.
        { apply rtc_once. by eapply m_tail. }
        destruct (snd (judge prof sched clock (reads w) (t_job t) u)); cbn [run fst];
          rewrite ?app_nil_r; try done.
        eapply rtc_r; [exact Hp|apply m_die].
  Qed.

  Theorem sys_step_micro s e : no_crash_in e = true → msteps e s (sys_step s e).1.
  Proof.
    intros He. unfold Sys.sys_step. destruct (alive s) eqn:Ea.
    - destruct e; try done; try (by apply micro_commit).
      + destruct s. apply rtc_once, m_die.
      + destruct s. apply rtc_once, m_die.
    - destruct e; try apply rtc_refl; [done|].
      destruct s as [w c ts a rs]. cbn in Ea. subst a. unfold commit. cbn [cfg tasks sw runs ev_prog].
      rewrite run_bind, run_process_jobs. cbv zeta.
      assert (msteps EvStart (Sys w c ts false rs) (Sys w wq_config_default [] true rs)) as H0.
      { apply (rtc_l _ _ (Sys w c [] false rs)); [apply m_die|]. by apply rtc_once, m_start. }
      pose proof (micro_pick EvStart wq_config_default [] rs w (or_intror eq_refl)) as Hp.
      destruct (do_pick prof name clock (max_processing_jobs wq_config_default) w) as [[w' js] o].
      cbn [fst snd app] in *.
      destruct o; cbn [run fst]; rewrite ?app_nil_r.
      + etrans; [exact H0|]. exact Hp.
      + etrans; [exact H0|]. eapply rtc_r; [exact Hp|apply m_die].
      + etrans; [exact H0|]. eapply rtc_r; [exact Hp|apply m_die].
  Qed.
End micro.
