(** Messages to the plugin centre: status notifications and hooks. *)
From Verif Require Import SpecPlugin JsonFacts BackendFacts WorldFacts MicroFacts LifeFacts HistFacts.

Lemma notes_app id l l' : notes id (l ++ l') = notes id l ++ notes id l'.
Proof. apply omap_app. Qed.
Lemma hooks_app id l l' : hooks id (l ++ l') = hooks id l ++ hooks id l'.
Proof. apply omap_app. Qed.

Section notes.
  Context {M : Type} `{SM : Serde M} {SO : SerdeOk M}.
  Context (prof : profile).
  Context (sched : string → option (time → option time)).
  Context (name : string).
  Context (clock : nat → time).
  Notation h := (mem_h clock).
  Notation qlist := (qlist name).
  Notation stored := (@stored M SM).
  Notation sys := (sys world M).
  Notation step := (sys_step prof sched name h).
  Notation mstep := (mstep prof sched name clock).
  Notation msteps e := (rtc (mstep e)).
  Notation all_at := (all_at name).
  Notation ok_hist := (ok_hist prof sched name clock).
  Notation go := (sys_run prof sched name h).
  Notation after := (after prof sched name clock).

  (** Which status changes an event can make. *)
  Definition src (e : event M) (o : option status) : Prop :=
    match e with
    | EvEnqueue _ _ => o = None ∨ ∃ s, o = Some s ∧ done_status s
    | EvCancel _ => o = Some Queued
    | EvRetry _ => ∃ s, o = Some s ∧ done_status s
    | EvTask _ _ => o = Some Running
    | EvTick | EvStart => o = Some Queued
    | _ => False
    end.
  Definition dst (e : event M) (o : status) : Prop :=
    match e with
    | EvEnqueue _ _ | EvRetry _ => o = Queued
    | EvCancel _ => o = Canceled
    | EvTask _ _ => o ≠ Running
    | EvTick | EvStart => o = Running
    | _ => False
    end.
  Lemma src_dst e s : dst e s → ¬ src e (Some s).
  Proof.
    destruct e; cbn; try done.
    - intros ->. intros [|(s & [= <-] & [|[]])]; done.
    - by intros ->.
    - intros -> (s' & [= <-] & [|[]]); done.
    - by intros ->.
    - congruence.
    - by intros ->.
  Qed.

  Notation note id s := (notes id (log (sw s))).

  (** Between two states an id keeps its status and gets no notification, or changes and gets one. *)
  Definition one_note (e : event M) (s s' : sys) (id : string) : Prop :=
    (status_of s' id = status_of s id ∧ note id s' = note id s) ∨
    (∃ st, status_of s' id = Some st ∧ src e (status_of s id) ∧ dst e st ∧ note id s' = note id s ++ [st]).

  Lemma one_note_trans e s s1 s2 id : one_note e s s1 id → one_note e s1 s2 id → one_note e s s2 id.
  Proof.
    intros [[E1 N1]|(st & E1 & Hs & Hd & N1)] [[E2 N2]|(st' & E2 & Hs' & Hd' & N2)].
    - left. split; congruence.
    - right. exists st'. rewrite E1 in Hs'. rewrite N1 in N2. done.
    - right. exists st. rewrite E2, N2. done.
    - exfalso. rewrite E1 in Hs'. exact (src_dst e st Hd Hs').
  Qed.

  (** A world whose only change is a save of the job [j]. *)
  Lemma one_note_save e (s s' : sys) (j : job M) id :
    (∀ k, stored (sw s') k = if bool_decide (k = jid j) then Some (norm_job j) else stored (sw s) k) →
    log (sw s') = log (sw s) ++ [ChangeStatus (jid j) (jstatus (ctx j))] →
    (src e (status_of s (jid j))) → dst e (jstatus (ctx j)) →
    one_note e s s' id.
  Proof.
    intros Hst Hl Hs Hd. unfold one_note, status_of. rewrite Hl, notes_app, Hst.
    destruct (bool_decide_reflect (id = jid j)) as [->|Hne].
    - right. exists (jstatus (ctx j)). cbn. rewrite String.eqb_refl. done.
    - left. cbn. destruct (String.eqb_spec (jid j) id); [congruence|]. by rewrite app_nil_r.
  Qed.

  Lemma mstep_note e (s s' : sys) id :
    all_at s → ok_event s e → ¬ overwrites_only e → mstep e s s' → one_note e s s' id.
  Proof.
    intros Ha Hok Hov Hm. destruct Hm.
    - left. unfold status_of. cbn. rewrite H. by rewrite H2.
    - by left.
    - by left.
    - (* submit *)
      subst e. eapply (one_note_save _ _ _ (enq j (now_ms clock w1))).
      + intros k. cbn [sw]. rewrite stored_do_enqueue. change (jid (enq j (now_ms clock w1))) with (jid j).
        destruct (bool_decide_reflect (k = jid j)) as [->|Hne]; [done|].
        destruct (stored w (jid j)) as [ex|]; [|by subst].
        destruct H0 as (_ & _ & ->). destruct (override_data ec); [|done].
        rewrite stored_put. by rewrite bool_decide_false.
      + assert (log w1 = log w) as El.
        { destruct (stored w (jid j)) as [ex|]; [|by subst]. destruct H0 as (_ & _ & ->).
          by destruct (override_data ec). }
        unfold do_enqueue, w_save. cbn. by rewrite El.
      + change (jid (enq j (now_ms clock w1))) with (jid j). unfold status_of. cbn [sw].
        destruct (stored w (jid j)) as [ex|]; [|by left].
        right. destruct H0 as (Hd%is_done_status & _). cbn. eexists. split; [done|].
        unfold done_status. tauto.
      + done.
    - (* override *)
      subst e. left. unfold status_of. cbn. split; [|done]. rewrite stored_put.
      destruct (bool_decide_reflect (id = jid j)) as [->|Hne]; [|done].
      rewrite H0. cbn. f_equal. cbn in Hok. destruct Hok as [Hq|(ex' & Hex & Est)].
      + destruct (Ha (jid j)) as [p Hp]. destruct p; cbn in Hp; destruct_and?; try congruence.
        * assert (ex = t_orig t) as -> by congruence. match goal with Hk : task_ok t |- _ => destruct Hk as (_ & Hr & _) end.
          unfold is_running in H2. by rewrite Hr in H2.
        * assert (ex = j0) as -> by congruence. unfold is_running in H2.
          match goal with E : jstatus (ctx j0) = Running |- _ => by rewrite E in H2 end.
        * assert (ex = j0) as -> by congruence. exfalso. apply Hov. cbn.
          match goal with E : is_done j0 = true |- _ => rewrite E, andb_true_r in H3 end. done.
      + assert (ex' = ex) as -> by congruence. done.
    - (* cancel *)
      subst e. eapply (one_note_save _ _ _ (can j (now_ms clock w))).
      + intros k. cbn [sw]. rewrite stored_rem, stored_save, stored_tick. done.
      + done.
      + assert (jid j = id0) as Ej.
        { destruct (Ha id0) as [p Hp]. destruct p; cbn in Hp; destruct_and?; try congruence.
          assert (j = t_orig t) as -> by congruence. done. }
        change (jid (can j (now_ms clock w))) with (jid j). unfold status_of. cbn [sw]. rewrite Ej, H0. cbn.
        apply is_queued_status in H1. by rewrite H1.
      + done.
    - (* retry *)
      subst e. eapply (one_note_save _ _ _ (enq j (now_ms clock w))).
      + intros k. cbn [sw]. by rewrite stored_do_re_enqueue.
      + done.
      + assert (jid j = id0) as Ej.
        { destruct (Ha id0) as [p Hp]. destruct p; cbn in Hp; destruct_and?; try congruence.
          assert (j = t_orig t) as -> by congruence. done. }
        change (jid (enq j (now_ms clock w))) with (jid j). unfold status_of. cbn [sw]. rewrite Ej, H0. cbn.
        apply is_done_status in H1. eexists. split; [done|]. unfold done_status. tauto.
      + done.
    - (* pick *)
      eapply (one_note_save _ _ _ j').
      + intros k. cbn [sw]. rewrite stored_move, stored_save, !stored_tick. done.
      + done.
      + assert (jid j = id0 ∧ jstatus (ctx j) = Queued) as [Ej Eq].
        { destruct (Ha id0) as [p Hp].
          assert (0 < cnt id0 (qlist w Queued))%nat as Hc.
          { rewrite H0, cnt_app, cnt_cons, bool_decide_true by done. lia. }
          destruct p; cbn in Hp; destruct_and?; try congruence; try lia. split; congruence. }
        assert (status_of (Sys w c ts true rs) (jid j') = Some Queued) as Est.
        { change (jid j') with (jid j). unfold status_of. cbn [sw]. rewrite Ej, H1. cbn. by rewrite Eq. }
        destruct H; subst; cbn; exact Est.
      + destruct H; subst; done.
    - (* drop *)
      left. unfold status_of. cbn. rewrite stored_push. done.
    - left. unfold status_of, w_send. cbn [sw log]. rewrite notes_app. split; [done|]. apply app_nil_r.
    - left. done.
    - left. unfold status_of, w_send. cbn [sw log]. rewrite notes_app. split; [done|]. apply app_nil_r.
    - (* tail *)
      subst e. unfold do_tail. destruct (judge prof sched clock (reads w) (t_job t) u) as [k v] eqn:Ej.
      assert (status_of (Sys w c ts true rs) (jid (t_job t)) = Some Running) as Est.
      { assert (t ∈ ts) as Hin by by eapply elem_of_list_lookup_2.
        destruct (Ha (tid t)) as [p Hp].
        assert (t ∈ tasks_of (tid t) (Sys w c ts true rs)) as Hto.
        { unfold tasks_of. cbn. by apply elem_of_list_filter. }
        destruct p; unfold at_ in Hp; cbv zeta in Hp; destruct_and?;
          match goal with E : tasks_of _ _ = _ |- _ => rewrite E in Hto end;
          try (by apply elem_of_nil in Hto).
        apply elem_of_list_singleton in Hto as <-. unfold status_of. cbn.
        match goal with Hk : task_ok t |- _ => destruct Hk as (_ & Hr & Hph) end. rewrite H1 in Hph.
        destruct Hph as [d ->]. unfold tid in *.
        change (jid (set_data (bump (t_orig t)) d)) with (jid (t_orig t)).
        cbn [sw] in *. match goal with E : stored w _ = _ |- _ => rewrite E end. cbn. by rewrite Hr. }
      apply judge_spec in Ej as [_ Hv]. destruct v as [nj|nj|nj|]; cbn [do_verdict fst snd].
      + destruct Hv as [Hv _]. eapply (one_note_save _ _ _ (enq nj (now_ms clock (w_reads w k)))).
        * intros k'. cbn [sw]. by rewrite stored_do_re_enqueue.
        * done.
        * change (jid (enq nj (now_ms clock (w_reads w k)))) with (jid nj). by rewrite Hv.
        * done.
      + destruct Hv as [Hv _]. eapply (one_note_save _ _ _ (fai nj (now_ms clock (w_reads w k)))).
        * intros k'. cbn [sw]. by rewrite stored_do_fail.
        * done.
        * change (jid (fai nj (now_ms clock (w_reads w k)))) with (jid nj). by rewrite Hv.
        * done.
      + destruct Hv as [Hv _]. eapply (one_note_save _ _ _ (fin nj (now_ms clock (w_reads w k)))).
        * intros k'. cbn [sw]. by rewrite stored_do_finish.
        * done.
        * change (jid (fin nj (now_ms clock (w_reads w k)))) with (jid nj). by rewrite Hv.
        * done.
      + by left.
    - by left.
  Qed.

  Lemma step_note (s : sys) e id :
    all_at s → ok_event s e → ¬ overwrites_only e → one_note e s (step s e).1 id.
  Proof.
    intros Ha Hok Hov.
    destruct (match e with EvEnqueue _ _ => true | _ => false end) eqn:Ee.
    - destruct e; try done. apply mstep_note; try done. apply micro_enqueue.
    - assert (∀ s : sys, ok_event s e) as Hok2 by (intros; by destruct e).
      assert (no_crash_in e = true) as Hnc by by destruct e.
      pose proof (sys_step_micro prof sched name clock s e Hnc) as Hm.
      induction Hm as [s|s s1 s' Hm Hms IH]; [by left|].
      eapply one_note_trans; [by eapply mstep_note|]. apply IH; [|done]. by eapply mstep_all_at.
  Qed.

  Lemma notes_path (s : sys) es id :
    all_at s → ok_hist s es → (∀ e, e ∈ es → ¬ overwrites_only e) →
    note id (go s es) = note id s ++ status_path prof sched name clock id s es.
  Proof.
    revert s. induction es as [|e es IH]; intros s Ha Hok Hov; [cbn; by rewrite app_nil_r|].
    cbn in Hok. destruct Hok as [He Hok]. rewrite go_cons. cbn [status_path].
    rewrite IH; [|by apply life_step|done|intros; apply Hov; by right].
    assert (one_note e s (step s e).1 id) as Hn.
    { apply step_note; [done|done|]. apply Hov. by left. }
    rewrite app_assoc. f_equal.
    destruct Hn as [[E ->]|(st & E & Hs & Hd & ->)].
    - rewrite decide_True by done. by rewrite app_nil_r.
    - rewrite decide_False; [by rewrite E|]. rewrite E. intros Heq. rewrite <-Heq in Hs. exact (src_dst e st Hd Hs).
  Qed.

  (** *** Hooks *)
  Definition jobs_in (ph : phase) (id : string) (ts : list (task M)) : nat :=
    length (filter (λ t, jid (t_job t) = id ∧ t_phase t = ph) ts).

  Lemma jobs_in_app ph id ts ts' : jobs_in ph id (ts ++ ts') = (jobs_in ph id ts + jobs_in ph id ts')%nat.
  Proof. unfold jobs_in. by rewrite list.filter_app, app_length. Qed.
  Lemma jobs_in_one ph id t :
    jobs_in ph id [t] = if bool_decide (jid (t_job t) = id ∧ t_phase t = ph) then 1%nat else 0%nat.
  Proof. unfold jobs_in. rewrite filter_cons. by destruct (bool_decide_reflect (jid (t_job t) = id ∧ t_phase t = ph)) as [Hb|Hb]; [rewrite decide_True|rewrite decide_False]. Qed.
  Lemma jobs_in_split ph id ts i t :
    ts !! i = Some t →
    jobs_in ph id ts = (jobs_in ph id [t] + jobs_in ph id (delete i ts))%nat ∧
    ∀ t', jobs_in ph id (<[i := t']> ts) = (jobs_in ph id [t'] + jobs_in ph id (delete i ts))%nat.
  Proof.
    intros Ht. assert (i < length ts)%nat as Hi by by eapply lookup_lt_Some. split.
    - rewrite <-(take_drop_middle ts i t Ht) at 1. rewrite delete_take_drop.
      change (t :: drop (S i) ts) with ([t] ++ drop (S i) ts). rewrite !jobs_in_app. lia.
    - intros t'. rewrite (insert_take_drop ts i t' Hi), delete_take_drop.
      change (t' :: drop (S i) ts) with ([t'] ++ drop (S i) ts). rewrite !jobs_in_app. lia.
  Qed.

  Definition hooks_ok (id : string) (s : sys) : Prop :=
    alive s = true →
    (length (hooks id (log (sw s))) + jobs_in InUser id (tasks s) =
     2 * length (runs_of id s) + jobs_in Hooked id (tasks s))%nat ∧
    Forall (λ b, b = true) (hooks id (log (sw s))).

  Lemma hooks_note id l k st : hooks id (l ++ [ChangeStatus k st]) = hooks id l.
  Proof. rewrite hooks_app. apply app_nil_r. Qed.
  Lemma hooks_do_verdict id w v : hooks id (log (do_verdict name clock w v)) = hooks id (log w).
  Proof.
    destruct v; cbn [do_verdict]; try done.
    - exact (hooks_note id _ _ _).
    - exact (hooks_note id _ _ _).
    - exact (hooks_note id _ _ _).
  Qed.

  Lemma runs_of_snoc id (w : world) c ts a rs (r : job M) :
    length (runs_of id (Sys w c ts a (rs ++ [r]))) =
    (length (runs_of id (Sys w c ts a rs)) + if bool_decide (jid r = id) then 1 else 0)%nat.
  Proof.
    unfold runs_of. cbn. rewrite list.filter_app, app_length, filter_cons.
    destruct (bool_decide_reflect (jid r = id)); [rewrite decide_True by done|rewrite decide_False by done]; done.
  Qed.

  Lemma mstep_hooks e (s s' : sys) id : e ≠ EvStart → mstep e s s' → hooks_ok id s → hooks_ok id s'.
  Proof.
    intros He Hm. unfold hooks_ok. destruct Hm; cbn [alive sw tasks]; try done.
    - rewrite H2. done.
    - (* submit *)
      intros Hs _. destruct (Hs eq_refl) as [E1 E2].
      assert (hooks id (log (do_enqueue name clock w1 j)) = hooks id (log w)) as ->.
      { transitivity (hooks id (log w1)); [exact (hooks_note id _ _ _)|].
        destruct (stored w (jid j)); [|by subst]. destruct H0 as (_ & _ & ->).
        by destruct (override_data ec). }
      done.
    - (* cancel *)
      intros Hs _. destruct (Hs eq_refl) as [E1 E2].
      assert (hooks id (log (w_rem name (w_save (w_tick w) (can j (now_ms clock w))) Queued id0)) = hooks id (log w)) as ->.
      { exact (hooks_note id _ _ _). }
      done.
    - intros Hs _. destruct (Hs eq_refl) as [E1 E2].
      assert (hooks id (log (do_re_enqueue name clock w j)) = hooks id (log w)) as ->.
      { exact (hooks_note id _ _ _). }
      done.
    - (* pick *)
      intros Hs _. destruct (Hs eq_refl) as [E1 E2].
      assert (hooks id (log (w_move name (w_save (w_tick (w_tick w)) j') Queued Running)) = hooks id (log w)) as ->.
      { exact (hooks_note id _ _ _). }
      split; [|done]. rewrite !jobs_in_app, !jobs_in_one.
      rewrite !bool_decide_false by (by intros [_ [=]]). unfold runs_of in *. cbn [runs sw tasks log] in *. lia.
    - (* drop *)
      intros Hs _. destruct (Hs eq_refl) as [E1 E2]. split; [|done].
      destruct (jobs_in_split InUser id ts i t H0) as [D1 _].
      destruct (jobs_in_split Hooked id ts i t H0) as [D2 _].
      rewrite jobs_in_one, bool_decide_false in D1 by (rewrite H1; by intros [_ [=]]).
      rewrite jobs_in_one, bool_decide_false in D2 by (rewrite H1; by intros [_ [=]]).
      unfold runs_of in *. cbn [runs sw tasks log] in *. change (log (w_push name w Canceled (jid (t_job t)))) with (log w). lia.
    - (* hook *)
      intros Hs _. destruct (Hs eq_refl) as [E1 E2].
      destruct (jobs_in_split InUser id ts i t H0) as [D1 D1'].
      destruct (jobs_in_split Hooked id ts i t H0) as [D2 D2'].
      rewrite D1', D2'. rewrite jobs_in_one in D1, D2 |- *. rewrite jobs_in_one.
      rewrite H1 in D1, D2. rewrite bool_decide_false in D1 by (by intros [_ [=]]).
      rewrite bool_decide_false in D2 by (by intros [_ [=]]). cbn [t_job t_phase].
      rewrite bool_decide_false by (by intros [_ [=]]).
      unfold w_send. cbn [log]. rewrite hooks_app. cbn [hooks omap list_omap].
      unfold runs_of in *. cbn [runs] in *.
      destruct (String.eqb_spec (jid (t_job t)) id) as [Eid|Eid].
      + rewrite bool_decide_true by done. split.
        * rewrite app_length. cbn. lia.
        * apply Forall_app. split; [done|]. by repeat constructor.
      + rewrite bool_decide_false by (by intros []). rewrite app_nil_r. split; [lia|done].
    - (* run *)
      intros Hs _. destruct (Hs eq_refl) as [E1 E2].
      destruct (jobs_in_split InUser id ts i t H0) as [D1 D1'].
      destruct (jobs_in_split Hooked id ts i t H0) as [D2 D2'].
      rewrite D1', D2'. rewrite jobs_in_one in D1, D2 |- *. rewrite jobs_in_one.
      rewrite H1 in D1, D2. rewrite bool_decide_false in D1 by (by intros [_ [=]]).
      cbn [t_job t_phase]. rewrite (bool_decide_false (_ ∧ InUser = Hooked)) by (by intros [_ [=]]).
      change (jid (bump (t_job t))) with (jid (t_job t)).
      split; [|done]. rewrite (runs_of_snoc id w c _ true rs (bump (t_job t))).
      change (jid (bump (t_job t))) with (jid (t_job t)).
      unfold runs_of in *. cbn [runs] in *.
      destruct (decide (jid (t_job t) = id)) as [Eid|Eid].
      + rewrite !bool_decide_true in * by done. lia.
      + rewrite (bool_decide_false (jid (t_job t) = id)) by done.
        rewrite (bool_decide_false (jid (t_job t) = id ∧ InUser = InUser)) by (by intros []).
        rewrite (bool_decide_false (jid (t_job t) = id ∧ Hooked = Hooked)) in D2 by (by intros []). lia.
    - (* return *)
      intros Hs _. destruct (Hs eq_refl) as [E1 E2].
      destruct (jobs_in_split InUser id ts i t H0) as [D1 D1'].
      destruct (jobs_in_split Hooked id ts i t H0) as [D2 D2'].
      rewrite D1', D2'. rewrite jobs_in_one in D1, D2 |- *. rewrite jobs_in_one.
      rewrite H1 in D1, D2. rewrite bool_decide_false in D2 by (by intros [_ [=]]).
      cbn [t_job t_phase]. rewrite !(bool_decide_false (_ ∧ AfterHook = _)) by (by intros [_ [=]]).
      unfold w_send. cbn [log]. rewrite hooks_app. cbn [hooks omap list_omap].
      unfold runs_of in *. cbn [runs] in *.
      destruct (String.eqb_spec (jid (t_job t)) id) as [Eid|Eid].
      + rewrite bool_decide_true in D1 by done. split.
        * rewrite app_length. cbn. lia.
        * apply Forall_app. split; [done|]. by repeat constructor.
      + rewrite bool_decide_false in D1 by (by intros []). rewrite app_nil_r. split; [lia|done].
    - (* tail *)
      intros Hs _. destruct (Hs eq_refl) as [E1 E2].
      assert (hooks id (log (do_tail prof sched name clock w (t_job t) u)) = hooks id (log w)) as ->.
      { unfold do_tail. by rewrite hooks_do_verdict. }
      split; [|done].
      destruct (jobs_in_split InUser id ts i t H0) as [D1 _].
      destruct (jobs_in_split Hooked id ts i t H0) as [D2 _].
      rewrite jobs_in_one, bool_decide_false in D1 by (rewrite H1; by intros [_ [=]]).
      rewrite jobs_in_one, bool_decide_false in D2 by (rewrite H1; by intros [_ [=]]).
      unfold runs_of in *. cbn [runs sw tasks log] in *. lia.
  Qed.
  Lemma step_hooks e (s : sys) id : calm e → hooks_ok id s → hooks_ok id (step s e).1.
  Proof.
    intros He Hs. assert (no_crash_in e = true) as Hnc by by destruct e.
    pose proof (sys_step_micro prof sched name clock s e Hnc) as Hm.
    induction Hm as [s|s s1 s' Hm Hms IH]; [done|]. apply IH. eapply mstep_hooks; [|done|done].
    by intros ->.
  Qed.
  Lemma go_hooks es (s : sys) id : Forall calm es → hooks_ok id s → hooks_ok id (go s es).
  Proof.
    intros H. revert s. induction H as [|e es He Hes IH]; intros s Hs; [done|]. rewrite go_cons.
    apply IH. by apply step_hooks.
  Qed.
  Lemma start_hooks id : hooks_ok id (step initial EvStart).1.
  Proof.
    assert ((step initial EvStart).1 = Sys world_empty wq_config_default [] true []) as ->; [|intros _; split; [done|by constructor]].
    unfold sys_step, commit. cbn [alive initial sys_init ev_prog cfg tasks sw runs].
    rewrite run_bind, run_process_jobs. cbv zeta. done.
  Qed.

  Lemma twice es id :
    Forall calm es → alive (after (EvStart :: es)) = true →
    (∀ t, t ∈ tasks (after (EvStart :: es)) → jid (t_job t) ≠ id) →
    hooks id (log (sw (after (EvStart :: es)))) =
    replicate (2 * length (runs_of id (after (EvStart :: es)))) true.
  Proof.
    intros Hc Ha Ht. unfold Spec.after in *. rewrite go_cons in *.
    destruct (go_hooks es _ id Hc (start_hooks id) Ha) as [H1 H2].
    set (s := go (step initial EvStart).1 es) in *.
    assert (∀ ph, jobs_in ph id (tasks s) = 0%nat) as Hz.
    { intros ph. clear H1. revert Ht. unfold jobs_in. induction (tasks s) as [|t ts IH]; intros Ht; [done|].
      rewrite filter_cons, decide_False by (intros [E _]; by apply (Ht t ltac:(left))).
      apply IH. intros t' Hin. apply Ht. by right. }
    rewrite !Hz in H1. rewrite <-(Nat.add_0_r (length (hooks id (log (sw s))))) in H1.
    replace (2 * length (runs_of id s))%nat with (length (hooks id (log (sw s)))) by lia.
    revert H2. clear. generalize (hooks id (log (sw s))). intros l Hl.
    induction Hl as [|b l -> Hl IH]; [done|]. cbn [length replicate]. by rewrite <-IH.
  Qed.
End notes.

(** *** Messages and what was written just before *)

(** In this program, run after [last] (the last effect, if it was a successful upsert), a status
    notification directly follows a successful write of a job with this id and this status, and hook
    messages are before-hooks. *)
Definition may_do (M : Type) `{Serde M} (last : option (string * value)) {X : Set} (e : eff X) : Prop :=
  match e with
  | Send (ChangeStatus id s) => ∃ j : job M, last = Some (id, enc_job j) ∧ jid j = id ∧ jstatus (ctx j) = s
  | Send (RunHook _ b) => b = true
  | _ => True
  end.
Definition wrote {X : Set} (e : eff X) : X → option (string * value) :=
  match e in eff X return X → option (string * value) with
  | SUpsert _ k v => λ r, match r with Ok _ => Some (k, v) | Err _ => None end
  | _ => λ _, None
  end.
Fixpoint honest (M : Type) `{Serde M} {A} (last : option (string * value)) (p : prog A) : Prop :=
  match p with
  | Eff e k => may_do M last e ∧ ∀ x, honest M (wrote e x) (k x)
  | _ => True
  end.

Section honest.
  Context {M : Type} `{SM : Serde M}.
  Context (prof : profile).
  Context (sched : string → option (time → option time)).
  Context (name : string).
  Notation honest := (honest M).

  Lemma honest_weaken {A} (p : prog A) l : honest None p → honest l p.
  Proof.
    destruct p as [| | |X e k]; try done. intros [H1 H2]. split; [|done].
    destruct e as [| | | | | | | |[]]; try done. cbn in *. by destruct H1 as (j & [=] & _).
  Qed.
  Lemma honest_bind {A B} (p : prog A) (f : A → prog B) l :
    honest l p → (∀ a, honest None (f a)) → honest l (bind p f).
  Proof.
    intros Hp Hf. revert l Hp. induction p as [a| | |X e k IH]; intros l Hp; cbn in *; try done.
    - by apply honest_weaken.
    - destruct Hp as [H1 H2]. split; [done|]. intros x. by apply IH.
  Qed.
  Lemma honest_do {X : Set} (e : eff X) l : may_do M l e → honest l (do e).
  Proof. by split. Qed.

  Ltac hb := first
    [ done
    | apply honest_bind; [|intros ?]
    | match goal with |- honest _ (match ?x with _ => _ end) => destruct x end
    | apply honest_do; done
    | progress cbv zeta
    | progress cbv beta iota ].

  Lemma honest_save (j : job M) : honest None (save_and_notify j).
  Proof. split; [done|]. intros [[]|e]; cbn; [|done]. split; [|done]. by exists j. Qed.
  Lemma honest_now : honest None get_now_as_ms.
  Proof. by repeat hb. Qed.
  Lemma honest_job_enqueue (j : job M) : honest None (job_enqueue j).
  Proof. apply honest_bind; [apply honest_now|intros t; apply honest_save]. Qed.
  Lemma honest_job_process (j : job M) : honest None (job_process j).
  Proof. apply honest_bind; [apply honest_now|intros t; apply honest_save]. Qed.
  Lemma honest_job_finish (j : job M) : honest None (job_finish j).
  Proof. apply honest_bind; [apply honest_now|intros t; apply honest_save]. Qed.
  Lemma honest_job_cancel (j : job M) : honest None (job_cancel j).
  Proof. apply honest_bind; [apply honest_now|intros t; apply honest_save]. Qed.
  Lemma honest_job_fail (j : job M) : honest None (job_fail j).
  Proof. apply honest_bind; [apply honest_now|intros t; apply honest_save]. Qed.
  Lemma honest_get key : honest None (get_from_storage (M := M) key).
  Proof. unfold get_from_storage. by repeat hb. Qed.
  Lemma honest_upsert key (j : job M) : honest None (upsert_to_storage key j).
  Proof. by split. Qed.
  Lemma honest_next_tick (j : job M) : honest None (next_tick prof sched j).
  Proof. unfold next_tick, get_now. by repeat hb. Qed.
  Lemma honest_enqueue (j : job M) : honest None (enqueue name j).
  Proof. unfold enqueue. repeat (first [done|apply honest_job_enqueue|hb]). Qed.
  Lemma honest_re_enqueue (j : job M) : honest None (re_enqueue name j).
  Proof. unfold re_enqueue. repeat (first [done|apply honest_job_enqueue|hb]). Qed.
  Lemma honest_run (j : job M) c : honest None (run_with_config name j c).
  Proof. unfold run_with_config. repeat (first [done|apply honest_get|apply honest_upsert|apply honest_enqueue|hb]). Qed.
  Lemma honest_finished (j : job M) : honest None (mark_job_is_finished name j).
  Proof. unfold mark_job_is_finished, remove_processing_job. repeat (first [done|apply honest_job_finish|hb]). Qed.
  Lemma honest_failed (j : job M) : honest None (mark_job_is_failed name j).
  Proof. unfold mark_job_is_failed, push_failed_job, remove_processing_job. repeat (first [done|apply honest_job_fail|hb]). Qed.
  Lemma honest_pick_batch total ids (ready : list (job M)) : honest None (pick_batch name total ids ready).
  Proof.
    revert ready. induction ids as [|id ids IH]; intros ready; [done|]. cbn [pick_batch]. unfold get_now.
    repeat (first [done|apply IH|apply honest_get|apply honest_job_process|hb]).
  Qed.
  Lemma honest_pick_loop fuel total (ready : list (job M)) cursor : honest None (pick_loop prof name fuel total ready cursor).
  Proof.
    revert ready cursor. induction fuel as [|fuel IH]; intros ready cursor; [done|]. cbn [pick_loop].
    repeat (first [done|apply IH|apply honest_pick_batch|hb]).
  Qed.
  Lemma honest_process_jobs c (ts : list (task M)) : honest None (process_jobs prof name c ts).
  Proof.
    unfold process_jobs, pick_jobs_to_process, try_pick_specific_ready_jobs.
    repeat (first [done|apply honest_pick_loop|hb]).
  Qed.
  Lemma honest_tail (o j : job M) u : honest None (task_tail prof sched name o j u).
  Proof.
    unfold task_tail, execute_tail, execute_finish, call_retry_at, get_now.
    repeat (first [done|apply honest_re_enqueue|apply honest_failed|apply honest_finished|apply honest_next_tick|hb]).
  Qed.
  Lemma honest_task_step (t : task M) u : honest None (task_step prof sched name t u).
  Proof.
    unfold task_step, mark_job_is_canceled, plugin_before, plugin_after.
    repeat (first [done|apply honest_tail|hb]).
  Qed.
  Lemma honest_ev_prog c ts (e : event M) : honest None (ev_prog prof sched name c ts e).
  Proof.
    destruct e; cbn [ev_prog]; unfold cancel_job, retry_job, get_job;
      repeat (first [done|apply honest_run|apply honest_get|apply honest_job_cancel|apply honest_re_enqueue
                    |apply honest_process_jobs|apply honest_task_step|hb]).
  Qed.

  (** Every message in a trace of effects is honest. *)
  Definition wrote_act (l : list act) : option (string * value) :=
    match list.last l with Some (AUpsert k v true) => Some (k, v) | _ => None end.
  Inductive honest_acts : list act → Prop :=
    | ha_nil : honest_acts []
    | ha_upsert l k v b : honest_acts l → honest_acts (l ++ [AUpsert k v b])
    | ha_other l : honest_acts l → honest_acts (l ++ [AOther])
    | ha_status l (j : job M) :
        honest_acts (l ++ [AUpsert (jid j) (enc_job j) true]) →
        honest_acts ((l ++ [AUpsert (jid j) (enc_job j) true]) ++ [ASend (ChangeStatus (jid j) (jstatus (ctx j)))])
    | ha_hook l id : honest_acts l → honest_acts (l ++ [ASend (RunHook id true)]).

  Lemma wrote_snoc l a : wrote_act (l ++ [a]) = match a with AUpsert k v true => Some (k, v) | _ => None end.
  Proof. unfold wrote_act. by rewrite list.last_snoc. Qed.
  Lemma wrote_act_inv l k v : wrote_act l = Some (k, v) → ∃ l', l = l' ++ [AUpsert k v true].
  Proof.
    destruct l as [|a l _] using rev_ind; [done|]. rewrite wrote_snoc. intros H. exists l.
    destruct a as [k' v' []| |]; by simplify_eq.
  Qed.
  Lemma honest_act {X : Set} (e : eff X) (x : X) l last :
    honest_acts l → (last = None ∨ wrote_act l = last) → may_do M last e →
    honest_acts (l ++ [act_of e x]) ∧ wrote_act (l ++ [act_of e x]) = wrote e x.
  Proof.
    intros Hl Hw Hm. rewrite wrote_snoc.
    destruct e as [| | | | | | | |[id s|id b]]; cbn in *; try (by split; [constructor|]).
    - split; [by constructor|]. by destruct x.
    - destruct Hm as (j & -> & <- & <-). destruct Hw as [|Hw]; [done|].
      apply wrote_act_inv in Hw as (l' & ->). split; [|done]. by apply ha_status.
    - subst b. by split; [constructor|].
  Qed.
  Lemma run_honest {W A} (h : handler W) (p : prog A) last wt :
    honest last p → honest_acts wt.2 → (last = None ∨ wrote_act wt.2 = last) →
    honest_acts (run (traced h) p wt).1.2.
  Proof.
    revert last wt. induction p as [a| | |X e k IH]; intros last [w t] Hp Ht Hl; cbn in *; try done.
    unfold traced at 1. cbn. destruct (h X e w) as [w' x]. destruct Hp as [H1 H2].
    destruct (honest_act e x t last Ht Hl H1) as [H3 H4].
    apply (IH x (wrote e x)); [apply H2|done|by right].
  Qed.
  Lemma run_n_honest {W A} (h : handler W) n (p : prog A) last wt :
    honest last p → honest_acts wt.2 → (last = None ∨ wrote_act wt.2 = last) →
    honest_acts (run_n (traced h) n p wt).2.
  Proof.
    revert p last wt. induction n as [|n IH]; intros p last [w t] Hp Ht Hl; [done|].
    destruct p as [a| | |X e k]; cbn in *; try done.
    unfold traced at 1. cbn. destruct (h X e w) as [w' x]. destruct Hp as [H1 H2].
    destruct (honest_act e x t last Ht Hl H1) as [H3 H4].
    apply (IH (k x) (wrote e x)); [apply H2|done|by right].
  Qed.

  Lemma step_honest {W} (h : handler W) (s : sys (W * list act) M) e :
    honest_acts (sw s).2 → honest_acts (sw (sys_step prof sched name (traced h) s e).1).2.
  Proof.
    intros Hs. assert (∀ e', honest_acts (sw (commit prof sched name (traced h) s e').1).2) as Hc.
    { intros e'. unfold commit.
      pose proof (run_honest h (ev_prog prof sched name (cfg s) (tasks s) e') None (sw s)
        (honest_ev_prog _ _ _) Hs (or_introl eq_refl)) as H.
      by destruct (run _ _ _) as [w [[[[c ts] js] r]| |]]. }
    assert (∀ e' n, honest_acts (run_n (traced h) n (ev_prog prof sched name (cfg s) (tasks s) e') (sw s)).2) as Hn.
    { intros e' n. apply (run_n_honest h n _ None (sw s)); [apply honest_ev_prog|done|by left]. }
    unfold sys_step. destruct (alive s).
    - destruct e as [| | | | | | | | |e' n|]; try apply Hc; try done. destruct e'; try apply Hn; done.
    - destruct e as [| | | | | | | | |e' n|]; try apply Hc; try done. destruct e'; try apply Hn; done.
  Qed.
  Lemma run_honest_hist {W} (h : handler W) (s : sys (W * list act) M) es :
    honest_acts (sw s).2 → honest_acts (sw (sys_run prof sched name (traced h) s es)).2.
  Proof.
    revert s. induction es as [|e es IH]; intros s Hs; [done|]. cbn. by apply IH, step_honest.
  Qed.

  Lemma honest_acts_prefix l l' : honest_acts (l ++ l') → honest_acts l.
  Proof.
    destruct l' as [|a l' IH] using rev_ind; [by rewrite app_nil_r|].
    intros H. apply IH. rewrite app_assoc in H. clear IH. revert H.
    generalize (l ++ l'). intros t H. inversion H; simplify_eq/=.
    - by destruct t.
    - apply app_inj_tail in H0 as [-> _]. done.
    - apply app_inj_tail in H0 as [-> _]. done.
    - apply app_inj_tail in H0 as [<- _]. done.
    - apply app_inj_tail in H0 as [-> _]. done.
  Qed.
  Lemma honest_acts_spec l pre m suf :
    honest_acts l → l = pre ++ ASend m :: suf →
    match m with
    | ChangeStatus id s =>
        ∃ pre' (j : job M), pre = pre' ++ [AUpsert id (enc_job j) true] ∧ jid j = id ∧ jstatus (ctx j) = s
    | RunHook _ b => b = true
    end.
  Proof.
    intros Hl ->. replace (pre ++ ASend m :: suf) with ((pre ++ [ASend m]) ++ suf) in Hl by by rewrite <-app_assoc.
    apply honest_acts_prefix in Hl. inversion Hl; simplify_eq/=.
    - by destruct pre.
    - by apply app_inj_tail in H as [_ [=]].
    - by apply app_inj_tail in H as [_ [=]].
    - apply app_inj_tail in H as [<- [= <-]]. by exists l, j.
    - by apply app_inj_tail in H as [_ [= <-]].
  Qed.
End honest.
