(** From the output of the user code to the record of the job. *)
From Verif Require Import Spec JsonFacts BackendFacts WorldFacts MicroFacts LifeFacts HistFacts SubmitFacts LifeProps
  PickFacts ApiFacts CrashFacts PluginFacts LiveFacts SpecSched SchedFacts SpecWhy WhyFacts SpecCount CountFacts SpecOutput.
Open Scope Z_scope.

Section facts.
  Context {M O : Type} `{SM : Serde M} {SO : SerdeOk M}.
  Context (prof : profile).
  Context (sched : string → option (time → option time)).
  Context (name : string).
  Context (clock : nat → time).
  Notation h := (mem_h clock).
  Notation sys := (sys world M).
  Notation step := (sys_step prof sched name h).
  Notation all_at := (all_at name).
  Notation show := (show name).
  Notation ok_hist := (ok_hist prof sched name clock).
  Notation after := (after prof sched name clock).
  Notation N := (clock_between clock).
  Notation executed_by := (executed_by prof sched name clock).
  Context (c : code M O).

  (** *** What tasks hold *)
  Definition holds (l : list (job M)) (t : task M) : Prop :=
    match t_phase t with
    | InUser => list.last l = Some (t_job t)
    | AfterHook => ∃ j, list.last l = Some j ∧ t_job t = Job (ctx j) (ur_data (code_result c j))
    | _ => True
    end.
  Lemma psteps_no_task id (e : event M) k p new k' p' t :
    (∀ i u, e ≠ EvTask i u) → psteps prof sched clock id e k p new k' p' → p' = PTask t →
    p = PTask t ∨ t_phase t = Spawned.
  Proof.
    intros He H. induction H as [|k p n1 k1 p1 n2 k2 p2 H1 H2 IH]; [by left|]. intros Hp.
    destruct (IH Hp) as [->|]; [|by right]. inversion H1; subst; try (by left); try (by destruct (He i u)).
    by right.
  Qed.
  Lemma by_app es e : executed_by c (es ++ [e]) → executed_by c es.
  Proof.
    intros H es1 i u es2 t j ->. apply (H es1 i u (es2 ++ [e])). by rewrite <-app_assoc.
  Qed.
  Lemma holds_after es i t :
    ok_hist initial es → executed_by c es → tasks (after es) !! i = Some t → holds (runs_of (tid t) (after es)) t.
  Proof.
    revert i t. induction es as [|e es IH] using rev_ind; intros i t Hok Hby Ht; [done|].
    pose proof Hok as Hok'. apply ok_hist_app in Hok as [Hok [He _]]. pose proof (by_app _ _ Hby) as Hby0.
    pose proof (all_at_after prof sched name clock es Hok) as Ha.
    pose proof (all_at_after prof sched name clock _ Hok') as Ha'.
    destruct (match e with EvTask _ _ => true | _ => false end) eqn:Ee.
    - destruct e as [| | | | | |i0 u| | | |]; try done. clear Ee.
      rewrite snoc_after in *. change (sys_run prof sched name h initial es) with (after es) in *.
      set (s := after es) in *.
      destruct (alive s) eqn:Eal.
      2:{ unfold sys_step in Ht |- *. rewrite Eal in Ht |- *. by apply (IH i). }
      destruct (tasks s !! i0) as [t0|] eqn:Et0.
      2:{ unfold sys_step, commit in Ht |- *. rewrite Eal in Ht |- *. cbn [ev_prog] in Ht |- *. rewrite Et0 in Ht |- *.
          cbn [run fst tasks] in Ht. unfold runs_of. cbn. rewrite app_nil_r. by apply (IH i). }
      destruct (alive (step s (EvTask i0 u)).1) eqn:Eal'.
      2:{ assert (tasks (step s (EvTask i0 u)).1 = []) as E0.
          { pose proof (dead_tasks prof sched name clock (es ++ [EvTask i0 u])) as Hd. rewrite snoc_after in Hd. by apply Hd. }
          by rewrite E0 in Ht. }
      destruct (step_poll prof sched name clock s i0 u t0 Eal Et0 Eal') as [Hts Hrs].
      assert (∀ i t, tasks s !! i = Some t → i ≠ i0 → runs_of (tid t) (step s (EvTask i0 u)).1 = runs_of (tid t) s) as Hoth.
      { intros i1 t1 Ht1 Hne. unfold runs_of. rewrite Hrs, list.filter_app. unfold started.
        destruct (t_phase t0); try (by rewrite app_nil_r). rewrite filter_cons_False, app_nil_r; [done|].
        intros E. apply Hne. pose proof (no_overlap prof sched name clock es Hok) as Hnd. fold s in Hnd.
        eapply NoDup_lookup; [exact Hnd|rewrite list_lookup_fmap; by rewrite Ht1|].
        rewrite list_lookup_fmap. rewrite Et0. cbn. f_equal.
        destruct (at_task_of name s i0 t0 Ha Et0) as (_ & _ & Hk). apply task_ok_jid in Hk as [Hk _].
        unfold jid in *. cbn in E. congruence. }
      rewrite Hts in Ht. destruct (next t0 u) as [t'|] eqn:En.
      + destruct (decide (i = i0)) as [->|Hne].
        * rewrite list_lookup_insert in Ht by by eapply lookup_lt_Some. injection Ht as ->.
          pose proof (IH i0 t0 Hok Hby0 Et0) as Hh. unfold next in En. unfold holds in Hh |- *.
          destruct (t_phase t0) eqn:Ep; try done.
          -- destruct (is_cancelled (t_job t0)); [done|]. by injection En as <-.
          -- injection En as <-. cbn [t_phase t_job]. unfold runs_of. rewrite Hrs. unfold started. rewrite Ep.
             rewrite list.filter_app, filter_cons_True, filter_nil; [by rewrite last_snoc|].
             destruct (at_task_of name s i0 t0 Ha Et0) as (_ & _ & Hk). apply task_ok_jid in Hk as [Hk _]. done.
          -- injection En as <-. cbn [t_phase t_job]. exists (t_job t0).
             assert (runs_of (tid t0) (step s (EvTask i0 u)).1 = runs_of (tid t0) s) as Er.
             { unfold runs_of. rewrite Hrs. unfold started. by rewrite Ep, app_nil_r. }
             cbn. change (tid (Task (t_orig t0) (set_data (t_job t0) (ur_data u)) AfterHook)) with (tid t0).
             rewrite Er. split; [done|].
             rewrite (Hby es i0 u [] t0 (t_job t0) eq_refl Et0 (or_introl Ep) Hh). done.
        * rewrite list_lookup_insert_ne in Ht by done. rewrite (Hoth i t Ht Hne). by apply (IH i).
      + assert (∃ i', tasks s !! i' = Some t ∧ i' ≠ i0) as (i' & Hi' & Hne).
        { destruct (decide (i < i0)%nat).
          - rewrite lookup_delete_lt in Ht by done. exists i. split; [done|lia].
          - rewrite lookup_delete_ge in Ht by lia. exists (S i). split; [done|lia]. }
        rewrite (Hoth i' t Hi' Hne). by apply (IH i').
    - rewrite snoc_after in *. change (sys_run prof sched name h initial es) with (after es) in *.
      set (s := after es) in *.
      destruct (Ha (tid t)) as [p Hp]. destruct (life_step prof sched name clock s e He Ha) as [_ Hs].
      destruct (Hs _ p Hp) as (p' & new & Hp' & Hps & _).
      assert (p' = PTask t) as ->.
      { pose proof (at_task_of name _ i t Ha' Ht) as Hat. by eapply at_fun. }
      assert (runs_of (tid t) (step s e).1 = runs_of (tid t) s) as ->.
      { unfold runs_of. rewrite step_runs. destruct e; try done; by rewrite app_nil_r. }
      destruct (psteps_no_task _ _ _ _ _ _ _ t ltac:(intros ? ? E0; by rewrite E0 in Ee) Hps eq_refl) as [->|Hsp].
      + destruct Hp as ((_ & _ & _ & Hto) & _). assert (t ∈ tasks_of (tid t) s) as Hin by (rewrite Hto; by apply elem_of_list_singleton).
        unfold tasks_of in Hin. apply elem_of_list_filter in Hin as [_ Hin]. apply elem_of_list_lookup in Hin as [i1 Hi1].
        by apply (IH i1).
      + unfold holds. by rewrite Hsp.
  Qed.

  (** *** The end of an execution *)
  Lemma tries_another (j : job M) d o u :
    does c j u → comes_to c j d o → tries_again j u ↔ another_try c j d o.
  Proof.
    intros (d' & o' & Ho' & _ & _ & Hr) Ho. destruct (comes_to_fun _ _ _ _ _ _ Ho Ho') as [-> ->].
    unfold tries_again, another_try. destruct (retry_at c) as [f|].
    - split; intros (r & Er & H); exists r; (split; [done|]); rewrite (Hr r Er) in *.
      + destruct H as [(r' & t & [= _ ->])|[[=] _]]. done.
      + left. destruct (f d r o) as [r' [t|]]; [by exists r', t|done].
    - rewrite Hr. split; intros (r & Er & H); exists r; (split; [done|]).
      + destruct H as [(? & ? & [=])|[[= ->] H]]. done.
      + destruct H as [-> H]. by right.
  Qed.
  Definition keeps (j : job M) (x : ending M) : Prop :=
    match x with Again j' | Over _ j' => data j' = data j ∧ run_count (ctx j') = run_count (ctx j) | Dies => True end.
  Lemma ends_without_keeps (P : time → Prop) (j : job M) failed x : ends_without_retry sched P j failed x → keeps j x.
  Proof.
    unfold ends_without_retry. destruct (jtype (ctx j)) as [|t|ex slot n cc]; [by intros ->..|].
    destruct (sched ex) as [nx|]; [|by intros ->]. intros (now & now' & _ & _ & H). cbv zeta in H.
    destruct (_ || _); destruct (nx now').
    - destruct (decide _); [by subst x|]. by destruct H as [->| ->].
    - by subst x.
    - destruct (decide _); [by subst x|]. by destruct H as [->|[n' ->]].
    - by subst x.
  Qed.
  Lemma ends_keeps (P : time → Prop) (j : job M) u x : ends sched P j u x → keeps j x.
  Proof.
    unfold ends. destruct (jretry (ctx j)) as [r|]; [|apply ends_without_keeps].
    destruct (ur_retry u) as [failed|r' [t|]].
    - destruct (SpecSched.wants_retry r failed); [|apply ends_without_keeps]. intros (now & _ & H).
      destruct (SpecSched.delay r); [destruct (decide _); by subst x|]. by destruct H as [->|(r' & t & _ & _ & ->)].
    - by intros ->.
    - intros H. by apply ends_without_keeps in H.
  Qed.
  Lemma output es i u t d o :
    ok_hist initial (es ++ [EvTask i u]) → executed_by c (es ++ [EvTask i u]) →
    tasks (after es) !! i = Some t → t_phase t = AfterHook → alive (after (es ++ [EvTask i u])) = true →
    ∃ j, list.last (runs_of (tid t) (after es)) = Some j ∧
      (comes_to c j d o →
       let s' := after (es ++ [EvTask i u]) in
       ∃ j', stored (sw s') (tid t) = Some j' ∧ data j' = d ∧ run_count (ctx j') = run_count (ctx j) ∧
         (another_try c j d o → jstatus (ctx j') = Queued) ∧
         (¬ another_try c j d o →
            jstatus (ctx j') = Queued ∧ goes_on sched (N (after es) s') j ∨
            jstatus (ctx j') = end_status c d o ∧ stops sched (N (after es) s') j)).
  Proof.
    intros Hok' Hby Ht Hp Hal'. pose proof Hok' as Hok. apply ok_hist_app in Hok as [Hok [He _]].
    pose proof (holds_after es i t Hok (by_app _ _ Hby) Ht) as Hh. unfold holds in Hh. rewrite Hp in Hh.
    destruct Hh as (j & Hj & Etj). exists j. split; [done|]. intros Ho.
    pose proof (Hby es i u [] t j eq_refl Ht (or_intror Hp) Hj) as Hu.
    pose proof (code_does c j) as Hdoes. rewrite <-Hu in Hdoes.
    pose proof (tries_another j d o u Hdoes Ho) as Htry.
    destruct Hdoes as (d' & o' & Ho' & Hd & Hf & Hr). destruct (comes_to_fun _ _ _ _ _ _ Ho Ho') as [-> ->]. clear Ho'.
    rewrite snoc_after in *. change (sys_run prof sched name h initial es) with (after es) in *. cbv zeta.
    set (s := after es) in *. rewrite <-Hu in Etj.
    pose proof (all_at_after prof sched name clock es Hok) as Ha. change (after es) with s in Ha.
    assert (alive s = true) as Hal.
    { destruct (alive s) eqn:E; [done|]. assert (tasks s = []) as E0 by by apply (dead_tasks prof sched name clock es). by rewrite E0 in Ht. }
    pose proof (sim_step prof sched name clock s (EvTask i u) Ha He) as H.
    unfold sched_step in H. cbn [up SpecSched.show] in H. rewrite Hal in H. destruct H as [_ H].
    unfold go_on in H. cbn [execs SpecSched.show] in H. rewrite list_lookup_fmap, Ht in H.
    cbn [fmap option_fmap option_map] in H. rewrite Hp in H. cbn [stage_of] in H.
    destruct H as (x & Hx & H). pose proof (ends_keeps _ _ _ _ Hx) as Hk. apply (ends_status sched name) in Hx.
    assert (jid (t_job t) = tid t) as Eid.
    { destruct (at_task_of name s i t Ha Ht) as (_ & _ & Hk0). by apply task_ok_jid in Hk0 as [Hk0 _]. }
    assert (tries_again (t_job t) u ↔ another_try c j d o) as Htry' by (by rewrite Etj).
    assert (∀ P, goes_on sched P (t_job t) → goes_on sched P j) as Hgo by (by rewrite Etj).
    assert (∀ P, stops sched P (t_job t) → stops sched P j) as Hst by (by rewrite Etj).
    rewrite Eid in H. destruct x as [j'|st' j'|].
    - destruct H as (now & _ & [(j1 & Hj1 & Hrb) _] & _). exists j1.
      destruct Hrb as (R1 & _ & _ & R2 & _ & _ & _ & _ & _ & _ & R3). destruct Hk as [K1 K2].
      split; [done|]. split; [rewrite R1; cbn; rewrite K1, Etj; done|]. split; [rewrite R3; cbn; rewrite K2, Etj; done|].
      split; [done|]. intros Hn. left. split; [done|]. destruct Hx as [Hx|Hx]; [by destruct Hn; apply Htry'|]. by apply Hgo.
    - destruct H as (now & _ & [(j1 & Hj1 & Hrb) _] & _). exists j1.
      destruct Hrb as (R1 & _ & _ & R2 & _ & _ & _ & _ & _ & _ & R3). destruct Hk as [K1 K2].
      destruct Hx as (-> & Hx1 & Hx2).
      split; [done|]. split; [rewrite R1; cbn; rewrite K1, Etj; done|]. split; [rewrite R3; cbn; rewrite K2, Etj; done|].
      split; [intros Hy; by apply Htry' in Hy|]. intros _. right. split; [|by apply Hst].
      rewrite R2. cbn. rewrite Hf. done.
    - destruct H as (_ & H & _). cbn in H. congruence.
  Qed.
  Lemma output_leads es i u t :
    ok_hist initial (es ++ [EvTask i u]) → executed_by c (es ++ [EvTask i u]) →
    tasks (after es) !! i = Some t → t_phase t = AfterHook → alive (after (es ++ [EvTask i u])) = true →
    let s' := after (es ++ [EvTask i u]) in
    ∃ j, list.last (runs_of (tid t) (after es)) = Some j ∧ ∀ d o, comes_to c j d o →
      ∃ j', stored (sw s') (tid t) = Some j' ∧ data j' = d ∧ run_count (ctx j') = run_count (ctx j) ∧
        (another_try c j d o → jstatus (ctx j') = Queued) ∧
        (¬ another_try c j d o →
           jstatus (ctx j') = Queued ∧ goes_on sched (N (after es) s') j ∨
           jstatus (ctx j') = end_status c d o ∧ stops sched (N (after es) s') j).
  Proof using SO.
    intros H1 H2 H3 H4 H5 s'. assert (∃ d o, comes_to c (t_job t) d o) as (d0 & o0 & _).
    { destruct (code_does c (t_job t)) as (d & o & H & _). by exists d, o. }
    destruct (output es i u t d0 o0 H1 H2 H3 H4 H5) as (j & Hj & _). exists j. split; [done|]. intros d o Ho.
    destruct (output es i u t d o H1 H2 H3 H4 H5) as (j2 & Hj2 & H). assert (j2 = j) as -> by congruence. by apply H.
  Qed.
  (** A check of [executed_by] by computation. *)
  Fixpoint checked (P : job M → user_result M → bool) (s : sys) (es : list (event M)) : bool :=
    match es with
    | [] => true
    | e :: es' =>
        match e with
        | EvTask i u =>
            match tasks s !! i with
            | Some t => match t_phase t with
                        | InUser | AfterHook =>
                            match list.last (runs_of (tid t) s) with Some j => P j u | None => true end
                        | _ => true end
            | None => true end
        | _ => true
        end && checked P (step s e).1 es'
    end.
  Lemma checked_ok P es :
    (∀ j u, P j u = true → u = code_result c j) → checked P initial es = true → executed_by c es.
  Proof.
    intros HP Hc es1 i u es2 t j E Ht Hp Hj. apply HP.
    assert (∀ s, checked P s es = true → checked P (sys_run prof sched name h s es1) (EvTask i u :: es2) = true) as Hg.
    { clear -E. subst es. induction es1 as [|e es1 IH]; intros s H; [done|].
      cbn [app checked] in H. apply andb_true_iff in H as [_ H]. by apply IH. }
    specialize (Hg _ Hc). change (sys_run prof sched name h initial es1) with (after es1) in Hg.
    cbn [checked] in Hg. rewrite Ht in Hg. apply andb_true_iff in Hg as [Hg _]. rewrite Hj in Hg.
    by destruct Hp as [Hp|Hp]; rewrite Hp in Hg.
  Qed.
End facts.
