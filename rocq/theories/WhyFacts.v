(** The status of a job tells what has happened. *)
From Verif Require Import Spec JsonFacts BackendFacts WorldFacts MicroFacts LifeFacts HistFacts SubmitFacts LifeProps
  PickFacts ApiFacts CrashFacts PluginFacts SpecSched SchedFacts SpecWhy.
Open Scope Z_scope.

Section facts.
  Context {M : Type} `{SM : Serde M} {SO : SerdeOk M}.
  Context (prof : profile).
  Context (sched : string → option (time → option time)).
  Context (name : string).
  Context (clock : nat → time).
  Notation h := (mem_h clock).
  Notation stored := (@stored M SM).
  Notation sys := (sys world M).
  Notation step := (sys_step prof sched name h).
  Notation all_at := (all_at name).
  Notation show := (show name).
  Notation ok_hist := (ok_hist prof sched name clock).
  Notation after := (after prof sched name clock).
  Notation N := (clock_between clock).

  Lemma status_show (s : sys) id : status_of s id = jstatus ∘ ctx <$> records (show s) id.
  Proof. done. Qed.

  (** *** Ends of executions *)
  Lemma ends_without_status (P : time → Prop) (j : job M) failed x :
    ends_without_retry sched P j failed x →
    match x with
    | Again _ => goes_on sched P j
    | Over st _ => st = (if failed then Failed else Finished) ∧ stops sched P j
    | Dies => True
    end.
  Proof.
    unfold ends_without_retry. destruct (jtype (ctx j)) as [|t|ex slot n cc] eqn:Ej.
    1,2: intros ->; split; [done|]; unfold stops; rewrite Ej; done.
    destruct (sched ex) as [next|] eqn:Es.
    2:{ intros ->. split; [done|]. unfold stops. rewrite Ej. intros ? ? ? ? [= <- <- <- <-] H. by rewrite Es in H. }
    intros (now & now' & Hn & Hn' & H). cbv zeta in H.
    set (past := match max_repeat cc with Some m => m <? n | None => false end ||
                 match end_at cc with Some t => t <? now | None => false end) in *.
    assert (past = true → stops sched P j) as Ht.
    { unfold past. intros [Hp|Hp]%orb_true_iff; intros ? ? ? ?; rewrite Ej; intros [= <- <- <- <-] _.
      - left. destruct (max_repeat cc) as [m|]; [|done]. exists m. split; [done|lia].
      - right. destruct (end_at cc) as [t|]; [|done]. exists t, now. split; [done|]. split; [done|lia]. }
    assert (past = false → goes_on sched P j) as Hf.
    { unfold past. intros [H1 H2]%orb_false_iff. exists ex, slot, n, cc, now. rewrite Es. split; [done|].
      split; [done|]. split; [done|]. split.
      - intros m Em. rewrite Em in H1. lia.
      - intros t Et. rewrite Et in H2. lia. }
    clearbody past. destruct past.
    - specialize (Ht eq_refl). destruct (next now').
      + destruct (decide _); [by subst x|]. by destruct H as [->| ->].
      + by subst x.
    - specialize (Hf eq_refl). destruct (next now').
      + destruct (decide _); [by subst x|]. by destruct H as [->|[n' ->]].
      + by subst x.
  Qed.
  Lemma ends_status (P : time → Prop) (j : job M) u x :
    ends sched P j u x →
    match x with
    | Again _ => tries_again j u ∨ goes_on sched P j
    | Over st _ => st = (if ur_failed u then Failed else Finished) ∧ ¬ tries_again j u ∧ stops sched P j
    | Dies => True
    end.
  Proof.
    assert (∀ j', jtype (ctx j') = jtype (ctx j) → ¬ tries_again j u → ends_without_retry sched P j' (ur_failed u) x →
      match x with
      | Again _ => tries_again j u ∨ goes_on sched P j
      | Over st _ => st = (if ur_failed u then Failed else Finished) ∧ ¬ tries_again j u ∧ stops sched P j
      | Dies => True
      end) as Hw.
    { intros j' Et Hn H. apply ends_without_status in H. unfold goes_on, stops in *. rewrite Et in H.
      destruct x; tauto. }
    unfold ends. destruct (jretry (ctx j)) as [r|] eqn:Er.
    2:{ apply Hw; [done|]. intros (r & E & _). congruence. }
    destruct (ur_retry u) as [failed|r' [t|]] eqn:Eu.
    - destruct (wants_retry r failed) eqn:Ew.
      + unfold wants_retry in Ew. apply andb_true_iff in Ew as [-> Ew].
        assert (tries_again j u) as Ht.
        { exists r. split; [done|]. right. split; [done|]. intros m Em. rewrite Em in Ew. lia. }
        intros (now & _ & H). destruct (delay r).
        * destruct (decide _); subst x; auto.
        * destruct H as [->|(r' & t & _ & _ & ->)]; auto.
      + apply Hw; [done|]. intros (r0 & E & [(? & ? & [=])|[E2 H]]); [congruence|].
        assert (r0 = r) as -> by congruence. assert (failed = true) as -> by congruence.
        unfold wants_retry in Ew. cbn [andb] in Ew. destruct (max_retries r) as [m|]; [|done].
        specialize (H m eq_refl). lia.
    - intros ->. left. exists r. split; [done|]. left. eauto.
    - apply Hw; [done|]. intros (r0 & E & [(? & ? & E2)|[E2 H]]); congruence.
  Qed.

  (** *** Ticks *)
  Lemma pstep_reads id (e : event M) k p new k' p' : pstep prof sched clock id e k p new k' p' → (k <= k')%nat.
  Proof.
    intros H. destruct H; try lia.
    all: match goal with H : judge _ _ _ _ _ _ = _ |- _ => apply judge_spec in H as [? _] end; lia.
  Qed.
  Lemma psteps_reads id (e : event M) k p new k' p' : psteps prof sched clock id e k p new k' p' → (k <= k')%nat.
  Proof.
    intros H. induction H as [|k p n1 k1 p1 n2 k2 p2 H1 H2 IH]; [lia|]. apply pstep_reads in H1. lia.
  Qed.
  Lemma psteps_picked id (e : event M) k p new k' (p' : @pstate M) :
    is_tick e → psteps prof sched clock id e k p new k' p' → pstat p' = Some Running →
    pstat p = Some Running ∨ ∃ j i, p = PQueued j ∧ (k <= i < k')%nat ∧ is_ready j (clock i) = true.
  Proof.
    intros He H. induction H as [|k p n1 k1 p1 n2 k2 p2 H1 H2 IH]; [by left|].
    intros Hp. pose proof (pstep_reads _ _ _ _ _ _ _ H1) as Hk1. pose proof (psteps_reads _ _ _ _ _ _ _ H2) as Hk2.
    destruct (IH Hp) as [Hr|(j & i & E & Hi & Hj)].
    - destruct H1; try (by left); try (destruct He; subst; done).
      + right. exists j, k. split; [done|]. split; [lia|done].
    - destruct H1; try (destruct He; subst; done); try done. right. exists j, i. split; [done|]. split; [lia|done].
  Qed.

  (** *** One event *)
  Notation Nn s e := (N s (step s e).1).
  Lemma other_record (b b' : board M) id k j : with_record b b' id j → k ≠ id → records b' k = records b k.
  Proof. intros [_ H] Hk. by apply H. Qed.
  Lemma queued_other P (b b' : board M) j k : queued P b b' j → k ≠ jid j → records b' k = records b k.
  Proof. intros (now & _ & H & _) Hk. by eapply other_record. Qed.
  Lemma submit_other P (b b' : board M) j c k : submit P b j c b' → k ≠ jid j → records b' k = records b k.
  Proof.
    unfold submit. intros H Hk. destruct (records b (jid j)) as [old|]; [|by eapply queued_other].
    destruct (_ && _); [by eapply queued_other|]. destruct (_ && _); [|apply H].
    destruct H as [H _]. by eapply other_record.
  Qed.
  Lemma cancel_other P (b b' : board M) id k : SpecSched.cancel P b id b' → k ≠ id → records b' k = records b k.
  Proof.
    unfold SpecSched.cancel. intros H Hk. destruct (records b id) as [j|]; [|apply H].
    destruct (decide _); [|apply H]. destruct H as (now & _ & H & _). by eapply other_record.
  Qed.
  Lemma retry_other P (b b' : board M) id x k :
    (∀ j, records b id = Some j → jid j = id) → retry_by_hand P b id x b' → k ≠ id → records b' k = records b k.
  Proof.
    unfold retry_by_hand. intros Hj H Hk. destruct (records b id) as [j|]; [|apply H].
    destruct (bool_decide _); [|apply H]. destruct H as [_ H]. eapply queued_other; [done|]. by rewrite (Hj j).
  Qed.
  Lemma status_same (b b' : board M) k :
    records b' k = records b k → jstatus ∘ ctx <$> records b' k = jstatus ∘ ctx <$> records b k.
  Proof. by intros ->. Qed.
  Lemma record_status (b b' : board M) id j :
    with_record b b' id j → jstatus ∘ ctx <$> records b' id = Some (jstatus (ctx j)).
  Proof. intros [(j' & -> & _ & _ & _ & E & _) _]. cbn. by rewrite E. Qed.

  Lemma why_step (s : sys) e id st :
    all_at s → ok_event s e → status_of (step s e).1 id = Some st → status_of s id ≠ Some st →
    came sched (Nn s e) s e id st.
  Proof.
    intros Hall Hok H1 H0.
    pose proof (sim_step prof sched name clock s e Hall Hok) as H.
    destruct (life_step prof sched name clock s e Hok Hall) as [Hall' Hs].
    destruct (Hall id) as [p Hp]. destruct (Hs id p Hp) as (p' & new & Hp' & Hps & _).
    destruct (at_pstat _ _ _ _ Hp) as [E Hd]. destruct (at_pstat _ _ _ _ Hp') as [E' _].
    destruct (psteps_chg prof sched name clock _ _ _ _ _ _ _ Hps Hd) as [Hc|[Hl Hc]]; [congruence|].
    rewrite H1 in E'. rewrite <-E, <-E' in *.
    assert (records (show (step s e).1) id ≠ records (show s) id) as Hne.
    { intros Hr. apply H0. rewrite status_show, <-Hr, <-status_show. done. }
    unfold sched_step in H. destruct (up (show s)) eqn:Ea.
    2:{ destruct e; try (by destruct Hne; apply H). cbn in Hc. injection Hc as ->.
        destruct (psteps_picked _ _ _ _ _ _ _ ltac:(by right) Hps ltac:(congruence)) as [Hr|(j & i & -> & Hi & Hj)].
        { congruence. }
        split; [by right|]. exists j, (clock i). destruct Hp as ((Hst & _) & _ & _ & Hq).
        split; [done|]. split; [done|]. split; [by exists i|]. by apply due_ready. }
    destruct e as [j c|id0|id0|id0|c| |i u| | |e n|]; cbn in Hc; try done.
    - destruct Hc as [[= ->] _]. left. exists j, c. split; [done|].
      destruct (decide (jid j = id)); [done|]. destruct Hne. destruct H as [_ H]. eapply submit_other; done.
    - injection Hc as ->. split.
      + f_equal. destruct (decide (id0 = id)); [done|]. destruct Hne. destruct H as [_ H]. eapply cancel_other; done.
      + destruct (status_of s id) as [[]|]; done.
    - destruct Hc as [[= ->] _]. right. left. f_equal.
      destruct (decide (id0 = id)); [done|]. destruct Hne. destruct H as (x & _ & H). eapply retry_other; [|done|done].
      intros j Hj. exact (all_at_keyed name s Hall id0 j Hj).
    - injection Hc as ->.
      destruct (psteps_picked _ _ _ _ _ _ _ ltac:(by left) Hps ltac:(congruence)) as [Hr|(j & i & -> & Hi & Hj)].
      { congruence. }
      split; [by left|]. exists j, (clock i). destruct Hp as ((Hst & _) & _ & _ & Hq).
      split; [done|]. split; [done|]. split; [by exists i|]. by apply due_ready.
    - destruct H as [_ H]. unfold go_on in H. cbn [execs SpecSched.show] in H. rewrite list_lookup_fmap in H.
      destruct (tasks s !! i) as [t|] eqn:Et; cbn [fmap option_fmap option_map] in H; [|by destruct Hne; apply H].
      destruct (t_phase t) eqn:Ep; cbn [stage_of] in H; try (by destruct Hne; apply H).
      destruct H as (x & Hx & H). apply ends_status in Hx.
      assert (∀ j', with_record (show s) (show (step s (EvTask i u)).1) (jid (t_job t)) j' →
        jid (t_job t) = id ∧ jstatus (ctx j') = st) as Hw.
      { intros j' Hw. destruct (decide (jid (t_job t) = id)) as [<-|]; [|destruct Hne; by eapply other_record].
        split; [done|]. apply record_status in Hw. rewrite <-status_show, H1 in Hw. congruence. }
      assert (jid (t_job t) = id → execution_ends s (EvTask i u) id (t_job t) u) as Hee.
      { intros Hid. by exists i, t. }
      destruct x as [j'|st' j'|].
      + destruct H as (now & _ & H & _). apply Hw in H as [Hid <-]. right. right. exists (t_job t), u. auto.
      + destruct H as (now & _ & H & _). apply Hw in H as [Hid Hst]. cbn in Hst. subst st'.
        destruct Hx as (-> & Hx1 & Hx2). destruct (ur_failed u) eqn:Eu; exists (t_job t), u; auto.
      + by destruct Hne; apply H.
    - by destruct Hne; apply H.
  Qed.

  (** *** Histories *)
  Lemma prefix_snoc_or {A} (l a : list A) x : l `prefix_of` a ++ [x] → l `prefix_of` a ∨ l = a ++ [x].
  Proof.
    intros [k Hk]. destruct k as [|y k _] using rev_ind; [right; by rewrite app_nil_r in Hk|].
    rewrite app_assoc in Hk. apply app_inj_tail in Hk as [-> _]. left. by exists k.
  Qed.
  Lemma why es id st :
    ok_hist initial es → status_of (after es) id = Some st →
    ∃ es1 e es2, es = es1 ++ e :: es2 ∧ status_of (after es1) id ≠ Some st ∧
      came sched (N (after es1) (after (es1 ++ [e]))) (after es1) e id st ∧
      ∀ l, l `prefix_of` es2 → status_of (after (es1 ++ e :: l)) id = Some st.
  Proof.
    induction es as [|e es IH] using rev_ind; [done|]. intros Hok Hst.
    pose proof Hok as Hok0. apply ok_hist_app in Hok as [Hok [He _]].
    destruct (decide (status_of (after es) id = Some st)) as [Hb|Hb].
    - destruct (IH Hok Hb) as (es1 & e1 & es2 & E & H0 & Hc & Hs). exists es1, e1, (es2 ++ [e]). subst es.
      split; [by rewrite <-app_assoc|]. split; [done|]. split; [done|].
      intros l [Hl| ->]%prefix_snoc_or; [by apply Hs|]. by rewrite <-app_assoc in Hst.
    - exists es, e, []. split; [done|]. split; [done|]. rewrite snoc_after in *. split.
      + apply why_step; try done. by apply (all_at_after prof sched name clock).
      + intros l ->%prefix_nil_inv. by rewrite snoc_after.
  Qed.

  (** *** The last call of user code *)
  Definition called (l : list (job M)) (p : @pstate M) : Prop :=
    match p with
    | PTask t => match t_phase t with
                 | InUser | AfterHook => ∃ j, list.last l = Some j ∧ ctx j = ctx (t_job t)
                 | _ => True end
    | _ => True
    end.
  Lemma psteps_called id (e : event M) k p new k' p' l :
    psteps prof sched clock id e k p new k' p' → called l p → called (l ++ new) p'.
  Proof.
    intros H. revert l. induction H as [|k p n1 k1 p1 n2 k2 p2 H1 H2 IH]; intros l Hl; [by rewrite app_nil_r|].
    rewrite app_assoc. apply IH. clear H2 IH.
    destruct H1; rewrite ?app_nil_r; cbn in *; try done.
    - rewrite last_snoc. eauto.
    - by rewrite H0 in Hl.
  Qed.
  Lemma called_after es id p : ok_hist initial es → at_ name (after es) id p → called (runs_of id (after es)) p.
  Proof.
    revert p. induction es as [|e es IH] using rev_ind; intros p Hok Hp.
    - destruct p; try done. destruct Hp as ((_ & _ & _ & H) & _). done.
    - apply ok_hist_app in Hok as [Hok [He _]]. pose proof (all_at_after prof sched name clock es Hok) as Ha.
      destruct (life_step prof sched name clock _ e He Ha) as [Ha' Hs].
      destruct (Ha id) as [p0 Hp0]. destruct (Hs id p0 Hp0) as (p' & new & Hp' & Hps & Hr).
      rewrite snoc_after in *. change (sys_run prof sched name h initial es) with (after es) in *. rewrite Hr.
      assert (p' = p) as -> by by eapply at_fun.
      eapply psteps_called; [done|]. by apply IH.
  Qed.

  Lemma runs_still (s : sys) e id :
    all_at s → status_of s id ≠ Some Running → runs_of id (step s e).1 = runs_of id s.
  Proof.
    intros Ha Hs. unfold runs_of. rewrite step_runs, list.filter_app.
    enough (filter (λ j, jid j = id) match e with
      | EvTask i _ => match tasks s !! i with
          | Some t => match t_phase t with Hooked => if alive s then [bump (t_job t)] else [] | _ => [] end
          | None => [] end
      | _ => [] end = []) as -> by by rewrite app_nil_r.
    destruct e; try done. destruct (tasks s !! i) as [t|] eqn:Et; [|done].
    destruct (t_phase t) eqn:Ep; try done. destruct (alive s); [|done].
    pose proof (at_task_of name s i t Ha Et) as Hat. destruct Hat as ((Hst & _) & _ & Hok).
    destruct (task_ok_jid t Hok) as [Hid Hrun]. rewrite filter_cons_False; [done|].
    cbn. intros E. apply Hs. unfold status_of. change (jid (t_job t) = id) in E. rewrite Hid in E. rewrite <-E, Hst. cbn.
    f_equal. by destruct Hok as (_ & ? & _).
  Qed.
  Lemma over es id st :
    ok_hist initial es → status_of (after es) id = Some st → st = Finished ∨ st = Failed →
    ∃ es1 i u es2 t j, es = es1 ++ EvTask i u :: es2 ∧
      tasks (after es1) !! i = Some t ∧ t_phase t = AfterHook ∧ tid t = id ∧
      list.last (runs_of id (after es)) = Some j ∧ ctx j = ctx (t_job t) ∧
      ur_failed u = bool_decide (st = Failed).
  Proof.
    intros Hok Hst Hd. destruct (why es id st Hok Hst) as (es1 & e & es2 & E & _ & Hc & Hs).
    assert (∃ j u, execution_ends (after es1) e id j u ∧ ur_failed u = bool_decide (st = Failed)) as (j & u & He & Hu).
    { destruct Hd as [-> | ->]; destruct Hc as (j & u & ? & ? & _); exists j, u; done. }
    destruct He as (i & t & -> & Et & Ep & <- & Hid).
    subst es. pose proof Hok as Hok0. apply ok_hist_app in Hok0 as [Hok1 _].
    pose proof (all_at_after prof sched name clock es1 Hok1) as Ha.
    pose proof (at_task_of name _ i t Ha Et) as Hat.
    assert (tid t = id) as Hti.
    { destruct Hat as (_ & _ & Htk). destruct (task_ok_jid t Htk) as [Hj _]. congruence. }
    pose proof (called_after es1 (tid t) _ Hok1 Hat) as Hcall. cbn in Hcall. rewrite Ep in Hcall.
    destruct Hcall as (j & Hj & Ej). exists es1, i, u, es2, t, j. rewrite Hti in *.
    split; [done|]. split; [done|]. split; [done|]. split; [done|]. split; [|done]. rewrite <-Hj. f_equal.
    assert (st ≠ Running) as Hnr by (by destruct Hd as [-> | ->]).
    clear Hj Ej Hst. induction es2 as [|e es2 IH] using rev_ind.
    - rewrite snoc_after. unfold runs_of. rewrite step_runs, Et, Ep. by rewrite app_nil_r.
    - rewrite app_comm_cons, app_assoc, snoc_after.
      assert (ok_hist initial (es1 ++ EvTask i u :: es2)) as Hok2.
      { rewrite app_comm_cons, app_assoc in Hok. by apply ok_hist_app in Hok as [? _]. }
      rewrite runs_still.
      + apply IH; [done|]. intros l Hl. apply Hs. by apply prefix_app_r.
      + by apply (all_at_after prof sched name clock).
      + rewrite Hs; [congruence|]. by apply prefix_app_r.
  Qed.

  (** *** Running *)
  Lemma queued_execs P (b b' : board M) j : queued P b b' j → execs b' = execs b.
  Proof. by intros (now & _ & _ & _ & _ & _ & _ & H & _). Qed.
  Lemma submit_execs P (b b' : board M) j c : submit P b j c b' → execs b' = execs b.
  Proof.
    unfold submit. destruct (records b (jid j)) as [old|]; [|apply queued_execs].
    destruct (_ && _); [apply queued_execs|]. destruct (_ && _); by intros (_ & _ & _ & _ & _ & H & _).
  Qed.
  Lemma cancel_execs P (b b' : board M) id : SpecSched.cancel P b id b' → execs b' = execs b.
  Proof.
    unfold SpecSched.cancel. destruct (records b id) as [j|]; [|by intros (_ & _ & _ & _ & _ & H & _)].
    destruct (decide _); [by intros (now & _ & _ & _ & _ & _ & _ & H & _)|by intros (_ & _ & _ & _ & _ & H & _)].
  Qed.
  Lemma retry_execs P (b b' : board M) id x : retry_by_hand P b id x b' → execs b' = execs b.
  Proof.
    unfold retry_by_hand. destruct (records b id) as [j|]; [|by intros (_ & _ & _ & _ & _ & _ & H & _)].
    destruct (bool_decide _); intros [_ H]; [by eapply queued_execs|]. by destruct H as (_ & _ & _ & _ & _ & H & _).
  Qed.
  Definition working (s : sys) (id : string) : Prop := ∃ t, t ∈ tasks s ∧ tid t = id.
  Lemma working_execs (s : sys) id :
    all_at s → working s id ↔ ∃ i x, execs (show s) !! i = Some x ∧ jid x.1 = id.
  Proof.
    intros Ha. cbn [execs SpecSched.show]. split.
    - intros (t & Hin & Hid). apply elem_of_list_lookup in Hin as [i Hi]. exists i, (t_job t, stage_of (t_phase t)).
      rewrite list_lookup_fmap, Hi. split; [done|].
      pose proof (at_task_of name s i t Ha Hi) as (_ & _ & Hok). destruct (task_ok_jid t Hok) as [E _]. cbn. congruence.
    - intros (i & x & Hx & Hid). rewrite list_lookup_fmap in Hx. destruct (tasks s !! i) as [t|] eqn:Et; [|done].
      injection Hx as <-. exists t. split; [by eapply elem_of_list_lookup_2|].
      pose proof (at_task_of name s i t Ha Et) as (_ & _ & Hok). destruct (task_ok_jid t Hok) as [E _]. cbn in Hid. congruence.
  Qed.
  Lemma working_step (s : sys) e id :
    all_at s → ok_event s e → (alive s = false → tasks s = []) →
    status_of (step s e).1 id = Some Running → working s id →
    working (step s e).1 id ∨ alive s = true ∧ alive (step s e).1 = false.
  Proof.
    intros Ha Hok Hd Hst Hw.
    destruct (alive s) eqn:Ea.
    2:{ destruct Hw as (t & Hin & _). rewrite Hd in Hin by done. by apply elem_of_nil in Hin. }
    destruct (alive (step s e).1) eqn:Ea'; [|by right]. left.
    pose proof (sim_step prof sched name clock s e Ha Hok) as H. unfold sched_step in H.
    cbn [up SpecSched.show] in H. rewrite Ea in H.
    destruct (life_step prof sched name clock s e Hok Ha) as [Ha' _].
    assert (execs (show (step s e).1) = execs (show s) → working (step s e).1 id) as Hsame.
    { intros E. apply (working_execs _ id Ha'). rewrite E. by apply (working_execs s id Ha). }
    destruct e as [j c|id0|id0|id0|c| |i u| | |e n|].
    - apply Hsame. destruct H as [_ H]. by eapply submit_execs.
    - apply Hsame. destruct H as [_ H]. by eapply cancel_execs.
    - apply Hsame. by destruct H as (_ & _ & _ & _ & _ & _ & ? & _).
    - apply Hsame. destruct H as (x & _ & H). by eapply retry_execs.
    - apply Hsame. by destruct H as (_ & _ & _ & _ & _ & _ & ? & _).
    - destruct Hw as (t & Hin & Hid). exists t. split; [|done].
      rewrite (step_tick prof sched name clock s Ea) in Ea' |- *. cbv zeta in *.
      destruct (do_pick _ _ _ _ _) as [[w js] []]; cbn in *; try done. apply elem_of_app. by left.
    - destruct H as [_ H]. unfold go_on in H.
      apply (working_execs s id Ha) in Hw as (k & x & Hk & Hid). apply (working_execs _ id Ha').
      assert (∀ y, jid y.1 = jid x.1 ∨ k ≠ i → ∃ k0 x0, <[i := y]> (execs (show s)) !! k0 = Some x0 ∧ jid x0.1 = id) as Hins.
      { intros y Hy. destruct (decide (k = i)) as [->|Hki].
        - exists i, y. rewrite list_lookup_insert by by eapply lookup_lt_Some. split; [done|]. destruct Hy; congruence.
        - exists k, x. by rewrite list_lookup_insert_ne. }
      assert (jid x.1 ≠ jid (default x (execs (show s) !! i)).1 →
        ∃ k0 x0, delete i (execs (show s)) !! k0 = Some x0 ∧ jid x0.1 = id) as Hdel.
      { intros Hy. assert (k ≠ i) as Hki by (intros ->; rewrite Hk in Hy; done).
        destruct (decide (k < i)%nat).
        - exists k, x. by rewrite lookup_delete_lt.
        - exists (pred k), x. rewrite lookup_delete_ge by lia. by replace (S (pred k)) with k by lia. }
      destruct (execs (show s) !! i) as [[j st]|] eqn:Ei.
      2:{ destruct H as (_ & _ & _ & _ & _ & -> & _). eauto. }
      destruct st.
      + destruct H as (_ & _ & _ & _ & _ & -> & _). apply Hins. destruct (decide (k = i)) as [->|]; [left|by right].
        assert (x = (j, Taken)) as -> by congruence. done.
      + destruct H as (_ & _ & _ & _ & _ & -> & _). apply Hins. destruct (decide (k = i)) as [->|]; [left|by right].
        assert (x = (j, Announced)) as -> by congruence. done.
      + destruct H as (_ & _ & _ & _ & _ & -> & _). apply Hins. destruct (decide (k = i)) as [->|]; [left|by right].
        assert (x = (j, Working)) as -> by congruence. done.
      + destruct H as (x' & Hx & H). apply ends_status in Hx. 
        rewrite status_show in Hst.
        destruct x' as [j'|st' j'|].
        * destruct H as (now & _ & H & _ & _ & _ & _ & -> & _). apply Hdel. intros E. change (jid x.1 = jid j) in E. apply record_status in H.
          rewrite <-E, Hid, Hst in H. done.
        * destruct H as (now & _ & H & _ & _ & _ & _ & -> & _). apply Hdel. intros E. change (jid x.1 = jid j) in E. apply record_status in H.
          rewrite <-E, Hid, Hst in H. destruct Hx as [-> _]. cbn in H. by destruct (ur_failed u).
        * destruct H as (_ & H & _). cbn in H. congruence.
    - destruct H as (_ & _ & H & _). cbn in H. congruence.
    - destruct H as (_ & _ & H & _). cbn in H. congruence.
    - done.
    - apply Hsame. by destruct H as (_ & _ & _ & _ & _ & _ & ? & _).
  Qed.
  Lemma batch_stored total ids (ready : list (job M)) w id :
    let r := scan_batch name clock total ids ready w in
    id ∉ map jid r.2 → stored r.1 id = stored w id ∧ id ∉ map jid ready.
  Proof.
    revert ready w. induction ids as [|k ids IH]; intros ready w; cbn [scan_batch fst snd]; [done|].
    destruct (stored w k) as [j|] eqn:Ek.
    2:{ intros H. apply IH in H as [H1 H2]. by rewrite stored_move in H1. }
    destruct (_ && _ && _).
    - intros H. apply IH in H as [H1 H2]. rewrite map_app, not_elem_of_app in H2. destruct H2 as [H2 H3].
      split; [|done]. rewrite H1, stored_move, stored_save.
      rewrite bool_decide_false; [done|]. intros ->. apply H3. by left.
    - intros H. apply IH in H as [H1 H2]. by rewrite stored_move in H1.
  Qed.
  Lemma loop_stored fuel total (ready : list (job M)) cursor w id :
    let r := scan_loop prof name clock fuel total ready cursor w in
    id ∉ map jid r.1.2 → stored r.1.1 id = stored w id ∧ id ∉ map jid ready.
  Proof.
    revert ready cursor w. induction fuel as [|fuel IH]; intros ready cursor w; cbn [scan_loop]; [done|].
    destruct (i32_norm prof _) as [c|]; [|done].
    pose proof (batch_stored total (take BATCH (rev (qlist name w Queued))) ready w id) as Hb.
    destruct (scan_batch name clock total _ ready w) as [w' ready']. cbn [fst snd] in Hb.
    destruct (_ <=? _)%nat; [by intros ?%Hb|]. destruct (_ <=? _); [by intros ?%Hb|].
    intros H. apply IH in H as [-> H]. by apply Hb.
  Qed.
  Lemma pick_stored max w id :
    let r := do_pick prof name clock max w in
    stored r.1.1 id ≠ stored w id → id ∈ map jid (r.1.2 : list (job M)).
  Proof.
    cbv zeta. intros H. destruct (decide (id ∈ map jid ((do_pick prof name clock max w).1.2 : list (job M)))) as [|Hn]; [done|].
    destruct H. unfold do_pick in *. destruct (_ <=? _)%nat; [done|]. by apply loop_stored in Hn as [? _].
  Qed.
  Lemma taken_works (s : sys) e id :
    is_tick e → status_of (step s e).1 id ≠ status_of s id → alive (step s e).1 = true → working (step s e).1 id.
  Proof.
    assert (∀ c ts w' js o, do_pick prof name clock c (sw s) = (w', js, o) →
      jstatus ∘ ctx <$> stored w' id ≠ status_of s id → ∃ t : task M, t ∈ ts ++ map spawn js ∧ tid t = id) as Hp.
    { intros c ts w' js o E Hne. pose proof (pick_stored c (sw s) id) as H. cbv zeta in H. rewrite E in H.
      cbn [fst snd] in H. destruct (proj1 (elem_of_list_fmap _ _ _) (H ltac:(intros E'; apply Hne; by rewrite E'))) as (j & -> & Hj).
      exists (spawn j). split; [|done]. apply elem_of_app. right. apply elem_of_list_fmap. eauto. }
    unfold sys_step, commit. intros [-> | ->]; cbn [ev_prog].
    - destruct (alive s) eqn:Ea; [|by cbn]. rewrite run_bind, run_process_jobs. cbv zeta.
      destruct (do_pick _ _ _ _ _) as [[w' js] o] eqn:E. cbn [fst snd]. destruct o; cbn [run fst]; [|done..].
      intros Hne _. by eapply Hp.
    - destruct (alive s) eqn:Ea; [by cbn|]. rewrite run_bind, run_process_jobs. cbv zeta.
      destruct (do_pick _ _ _ _ _) as [[w' js] o] eqn:E. cbn [fst snd]. destruct o; cbn [run fst]; [|done..].
      intros Hne _. by eapply Hp.
  Qed.
  Lemma running es id :
    ok_hist initial es → status_of (after es) id = Some Running →
    ∃ es1 e es2, es = es1 ++ e :: es2 ∧ (e = EvTick ∨ e = EvStart) ∧ status_of (after es1) id = Some Queued ∧
      ((∃ t, t ∈ tasks (after es) ∧ tid t = id) ∨ ∃ l, l `prefix_of` es2 ∧ alive (after (es1 ++ e :: l)) = false).
  Proof.
    intros Hok Hst. destruct (why es id Running Hok Hst) as (es1 & e & es2 & E & H0 & [He (j & now & Hj & Hq & _)] & Hs).
    exists es1, e, es2. split; [done|]. split; [done|].
    assert (status_of (after es1) id = Some Queued) as Hq1 by (unfold status_of; rewrite Hj; cbn; congruence).
    split; [done|].
    subst es. clear Hst. induction es2 as [|e' es2 IH] using rev_ind.
    - destruct (alive (after (es1 ++ [e]))) eqn:Ea; [|right; by exists []].
      left. specialize (Hs [] (prefix_nil _)). rewrite snoc_after in *. apply taken_works; [done| |done]. congruence.
    - rewrite app_comm_cons, app_assoc in Hok. pose proof Hok as Hok0. apply ok_hist_app in Hok0 as [Hok1 [He' _]].
      destruct IH as [IH|(l & Hl & Hd)].
      + done.
      + intros l Hl. apply Hs. by apply prefix_app_r.
      + pose proof (Hs (es2 ++ [e']) (reflexivity _)) as Hst. rewrite app_comm_cons, app_assoc in *. rewrite snoc_after in *.
        destruct (working_step (after (es1 ++ e :: es2)) e' id) as [Hw|[_ Hd]]; try done.
        * by apply (all_at_after prof sched name clock).
        * by apply dead_tasks.
        * by left.
        * right. exists (es2 ++ [e']). split; [done|]. by rewrite app_comm_cons, app_assoc, snoc_after.
      + right. exists l. split; [by apply prefix_app_r|done].
  Qed.
End facts.
