(** Several processes on one queue: the small changes of one process, seen with the tasks of all. *)
From Verif Require Import SpecWorkers JsonFacts BackendFacts WorldFacts MicroFacts LifeFacts HistFacts SubmitFacts LifeProps.

Section one.
  Context {M : Type} `{SM : Serde M} {SO : SerdeOk M}.
  Context (prof : profile).
  Context (sched : string → option (time → option time)).
  Context (name : string).
  Context (clock : nat → time).
  Notation stored := (@stored M SM).
  Notation qlist := (qlist name).
  Notation sys := (sys world M).
  Notation mstep := (mstep prof sched name clock).
  Notation at_ := (at_ name).
  Notation all_at := (all_at name).
  Notation pstep := (pstep prof sched clock).
  Notation psteps := (psteps prof sched clock).
  Notation ok_event := (@ok_event M SM).

  Definition ext (o : list (task M)) (s : sys) : sys :=
    Sys (sw s) (cfg s) (o ++ tasks s) (alive s) (runs s).
  Definition shift (n : nat) (e : event M) : event M :=
    match e with EvTask i u => EvTask (n + i) u | _ => e end.

  Lemma pstep_shift n id e k p new k' p' : pstep id (shift n e) k p new k' p' → pstep id e k p new k' p'.
  Proof.
    assert (∀ i u, shift n e = EvTask i u → ∃ i', e = EvTask i' u) as HT.
    { destruct e; cbn; try done. intros i' u' [= <- <-]. eauto. }
    assert (∀ j c, shift n e = EvEnqueue j c → e = EvEnqueue j c) as HE by (by destruct e).
    assert (∀ i, shift n e = EvCancel i → e = EvCancel i) as HC by (by destruct e).
    assert (∀ i, shift n e = EvRetry i → e = EvRetry i) as HR by (by destruct e).
    assert (is_tick (shift n e) → is_tick e) as HK by (destruct e; cbn; intros [?|?]; (by left) || (by right) || done).
    destruct 1; repeat match goal with
      | H : shift n e = EvTask _ _ |- _ => apply HT in H as [? H]
      | H : shift n e = EvEnqueue _ _ |- _ => apply HE in H
      | H : shift n e = EvCancel _ |- _ => apply HC in H
      | H : shift n e = EvRetry _ |- _ => apply HR in H
      end; try (by econstructor; eauto).
  Qed.

  Lemma lookup_app_add {A} (l k : list A) i : (l ++ k) !! (length l + i)%nat = k !! i.
  Proof. rewrite lookup_app_r by lia. f_equal. lia. Qed.
  Lemma delete_app_r_add {A} (l k : list A) i : l ++ delete i k = delete (length l + i)%nat (l ++ k).
  Proof. induction l as [|x l IH]; cbn; [done|]. by rewrite IH. Qed.
  Lemma insert_app_add {A} (l k : list A) i x : l ++ <[i:=x]> k = <[(length l + i)%nat:=x]> (l ++ k).
  Proof. induction l as [|y l IH]; cbn; [done|]. by rewrite IH. Qed.

  Lemma mstep_ext o e s s' :
    mstep e s s' →
    mstep (shift (length o) e) (ext o s) (ext o s') ∨
    (sw s' = sw s ∧ runs s' = runs s ∧ tasks s' = []).
  Proof.
    intros Hm. destruct Hm; unfold ext; cbn [sw cfg tasks alive runs]; subst.
    - left. by apply m_idle.
    - left. by apply m_config.
    - right. done.
    - left. by eapply m_submit.
    - left. by eapply m_override.
    - left. by eapply m_cancel.
    - left. by eapply m_retry.
    - left. rewrite app_assoc. eapply m_pick; try done. by destruct H as [->| ->]; [left|right].
    - left. rewrite delete_app_r_add. eapply m_drop; try done. by rewrite lookup_app_add.
    - left. rewrite insert_app_add. eapply m_hook; try done. by rewrite lookup_app_add.
    - left. rewrite insert_app_add. eapply m_run; try done. by rewrite lookup_app_add.
    - left. rewrite insert_app_add. eapply m_return; try done. by rewrite lookup_app_add.
    - left. rewrite delete_app_r_add. eapply m_tail; try done. by rewrite lookup_app_add.
    - right. done.
  Qed.

  Lemma tasks_of_ext o s id : tasks_of id (ext o s) = filter (λ t, tid t = id) o ++ tasks_of id s.
  Proof. unfold tasks_of, ext. cbn [tasks]. by rewrite list.filter_app. Qed.

  (** Losing the tasks of one process. *)
  Lemma at_die o s s' id p :
    at_ (ext o s) id p → sw s' = sw s → tasks s' = [] →
    at_ (ext o s') id p ∨ ∃ t, p = PTask t ∧ at_ (ext o s') id (POrphan (t_orig t)).
  Proof.
    intros Hp Ew Et.
    assert (tasks_of id (ext o s') = filter (λ t, tid t = id) o) as E'.
    { rewrite tasks_of_ext. unfold tasks_of. rewrite Et. by rewrite app_nil_r. }
    pose proof (tasks_of_ext o s id) as E.
    destruct p as [|j|j|t|j|j]; unfold LifeFacts.at_ in *; cbn [ext sw] in *; rewrite E', Ew; rewrite E in Hp.
    1: destruct Hp as (H1&H2&H3&H4); apply app_eq_nil in H4 as [-> _]; by left.
    1,2,4,5: destruct Hp as [(H1&H2&H3&H4) H5]; apply app_eq_nil in H4 as [-> _]; by left.
    destruct Hp as [(H1&H2&H3&H4) (H5&H6)].
    destruct (filter (λ t, tid t = id) o) as [|t0 l] eqn:Ef.
    - right. exists t. split; [done|]. destruct H6 as (Hn & Hr & _). done.
    - left. cbn in H4. injection H4 as -> H4. by apply app_eq_nil in H4 as [-> _].
  Qed.

  Lemma life_mstep_ext o s e s' :
    all_at (ext o s) → ok_event s e → mstep e s s' →
    ∀ id p, at_ (ext o s) id p → ∃ p' new, at_ (ext o s') id p' ∧
      pstep id e (reads (sw s)) p new (reads (sw s')) p' ∧ runs_of id s' = runs_of id s ++ new.
  Proof.
    intros Ha Hok Hm id p Hp. destruct (mstep_ext o e s s' Hm) as [Hm'|(Ew & Er & Et)].
    - assert (ok_event (ext o s) (shift (length o) e)) as Hok' by (by destruct e).
      destruct (life_mstep prof sched name clock _ _ _ Ha Hok' Hm' id p Hp) as (p' & new & H1 & H2 & H3).
      exists p', new. split; [done|]. split; [by eapply pstep_shift|done].
    - assert (runs_of id s' = runs_of id s ++ []) as Hr by (unfold runs_of; by rewrite Er, app_nil_r).
      destruct (at_die o s s' id p Hp Ew Et) as [H|(t & -> & H)].
      + exists p, []. split; [done|]. split; [|done]. rewrite Ew. by apply p_stay.
      + exists (POrphan (t_orig t)), []. split; [done|]. split; [|done]. rewrite Ew. apply p_die.
  Qed.
  Lemma mstep_all_at_ext o s e s' : all_at (ext o s) → ok_event s e → mstep e s s' → all_at (ext o s').
  Proof.
    intros Ha Hok Hm id. destruct (Ha id) as [p Hp].
    destruct (life_mstep_ext o s e s' Ha Hok Hm id p Hp) as (p' & n & H & _). eauto.
  Qed.
  Lemma life_msteps_ext o s e s' :
    (∀ s : sys, ok_event s e) → rtc (mstep e) s s' → all_at (ext o s) →
    all_at (ext o s') ∧ ∀ id p, at_ (ext o s) id p → ∃ p' new, at_ (ext o s') id p' ∧
      psteps id e (reads (sw s)) p new (reads (sw s')) p' ∧ runs_of id s' = runs_of id s ++ new.
  Proof.
    intros Hok Hm. induction Hm as [s|s s1 s' Hm Hms IH]; intros Ha.
    { split; [done|]. intros id p Hp. exists p, []. split; [done|]. split; [apply ps_refl|]. by rewrite app_nil_r. }
    specialize (IH (mstep_all_at_ext _ _ _ _ Ha (Hok s) Hm)) as [Ha' IH]. split; [done|].
    intros id p Hp.
    destruct (life_mstep_ext o s e s1 Ha (Hok s) Hm id p Hp) as (p1 & n1 & H1 & H2 & H3).
    destruct (IH id p1 H1) as (p2 & n2 & H4 & H5 & H6).
    exists p2, (n1 ++ n2). split; [done|]. split; [by eapply ps_step|]. by rewrite H6, H3, app_assoc.
  Qed.
  Lemma life_step_ext o s e :
    let s' := (sys_step prof sched name (mem_h clock) s e).1 in
    ok_event s e → all_at (ext o s) →
    all_at (ext o s') ∧ ∀ id p, at_ (ext o s) id p → ∃ p' new, at_ (ext o s') id p' ∧
      psteps id e (reads (sw s)) p new (reads (sw s')) p' ∧ runs_of id s' = runs_of id s ++ new.
  Proof.
    intros s' Hok Ha.
    destruct (match e with EvEnqueue _ _ => true | _ => false end) eqn:Ee.
    - destruct e; try done. pose proof (micro_enqueue prof sched name clock s j c) as Hm.
      split; [by eapply mstep_all_at_ext|]. intros id p Hp.
      destruct (life_mstep_ext o s _ _ Ha Hok Hm id p Hp) as (p1 & n1 & H1 & H2 & H3).
      exists p1, n1. split; [done|]. split; [by apply psteps_one|done].
    - apply life_msteps_ext; [|apply sys_step_micro; by destruct e|done].
      intros s0. by destruct e.
  Qed.

  Lemma at_perm (s s' : sys) id p :
    at_ s id p → sw s' = sw s → tasks s' ≡ₚ tasks s → at_ s' id p.
  Proof.
    intros Hp Ew Et.
    assert (tasks_of id s' = tasks_of id s) as E.
    { assert (tasks_of id s' ≡ₚ tasks_of id s) as Hperm by (unfold tasks_of; by rewrite Et).
      destruct p as [|j|j|t|j|j]; cbn in Hp; destruct_and?;
        match goal with H : tasks_of id s = _ |- _ => rewrite H in Hperm |- * end;
        first [by apply Permutation_nil_r in Hperm | by apply Permutation_singleton_r in Hperm]. }
    eapply at_frame; [exact Hp|..]; try by rewrite Ew. done.
  Qed.
End one.

Section many.
  Context {M : Type} `{SM : Serde M} {SO : SerdeOk M}.
  Context (prof : nat → profile).
  Context (sched : nat → string → option (time → option time)).
  Context (name : string).
  Context (clock : nat → nat → time).
  Notation stored := (@stored M SM).
  Notation qlist := (qlist name).
  Notation fstep := (fleet_step prof sched name clock).
  Notation frun := (fleet_run prof sched name clock).
  Notation fafter := (fleet_after prof sched name clock).
  Notation ok_fleet := (ok_fleet prof sched name clock).
  Notation at_ := (at_ name).
  Notation all_at := (all_at name).
  Implicit Types f : fleet M.

  (** All processes as one queue with all the tasks. *)
  Definition whole f : sys world M := Sys (f_world f) wq_config_default (all_tasks f) true (f_runs f).

  Lemma tasks_split f i m : f_members f !! i = Some m →
    ∃ o, all_tasks f ≡ₚ o ++ m_tasks m ∧
      ∀ w m' rs, all_tasks (Fleet w (<[i:=m']> (f_members f)) rs) ≡ₚ o ++ m_tasks m'.
  Proof.
    intros E. exists (concat (map m_tasks (take i (f_members f))) ++ concat (map m_tasks (drop (S i) (f_members f)))).
    unfold all_tasks. split.
    - rewrite <-(take_drop_middle (f_members f) i m E) at 1. rewrite map_app, concat_app. cbn.
      rewrite <-app_assoc. f_equiv. by rewrite Permutation_app_comm.
    - intros w m' rs. cbn [f_members]. rewrite insert_take_drop by (by eapply lookup_lt_Some).
      rewrite map_app, concat_app. cbn. rewrite <-app_assoc. f_equiv. by rewrite Permutation_app_comm.
  Qed.

  Lemma fleet_life f i e :
    ok_fleet_event (f_world f) e → all_at (whole f) →
    all_at (whole (fstep f (i, e))) ∧
    ∀ id p, at_ (whole f) id p → ∃ p' new, at_ (whole (fstep f (i, e))) id p' ∧
      psteps (prof i) (sched i) (clock i) id e (reads (f_world f)) p new (reads (f_world (fstep f (i, e)))) p' ∧
      f_runs_of id (fstep f (i, e)) = f_runs_of id f ++ new.
  Proof.
    intros Hok Ha. unfold fleet_step. cbn [fst snd]. destruct (f_members f !! i) as [m|] eqn:Em.
    2: { split; [done|]. intros id p Hp. exists p, []. split; [done|]. split; [apply ps_refl|]. by rewrite app_nil_r. }
    destruct (tasks_split f i m Em) as (o & Ho & Ho').
    set (s := seen_by f m). set (s' := (sys_step _ _ _ _ s e).1).
    assert (∀ id p, at_ (whole f) id p ↔ at_ (ext o s) id p) as H1.
    { intros id p. split; intros H; eapply at_perm; try exact H; try done; unfold whole, ext; cbn [tasks]; by rewrite Ho. }
    set (f' := Fleet _ _ _).
    assert (∀ id p, at_ (whole f') id p ↔ at_ (ext o s') id p) as H2.
    { intros id p. split; intros H; eapply at_perm; try exact H; try done; unfold whole, ext, f'; cbn [tasks]; by rewrite Ho'. }
    destruct (life_step_ext (prof i) (sched i) name (clock i) o s e) as [H3 H4].
    { done. }
    { intros id. destruct (Ha id) as [p Hp]. exists p. by apply H1. }
    split; [intros id; destruct (H3 id) as [p Hp]; exists p; by apply H2|].
    intros id p Hp. apply H1 in Hp. destruct (H4 id p Hp) as (p' & new & H5 & H6 & H7).
    exists p', new. split; [by apply H2|]. done.
  Qed.

  Lemma fleet_snoc f es ie : frun f (es ++ [ie]) = fstep (frun f es) ie.
  Proof. unfold fleet_run. by rewrite fold_left_app. Qed.
  Lemma ok_fleet_app f es es' : ok_fleet f (es ++ es') ↔ ok_fleet f es ∧ ok_fleet (frun f es) es'.
  Proof. revert f; induction es as [|e es IH]; intros f; cbn; [tauto|]. rewrite IH. cbn. tauto. Qed.

  Lemma whole_init n : all_at (whole (fleet_init n)).
  Proof.
    intros id. exists PAbsent. cbn. split; [done|]. split; [done|]. split; [done|].
    unfold tasks_of, whole, all_tasks. cbn. induction n as [|n IH]; [done|]. cbn. done.
  Qed.
  Lemma whole_run f es : all_at (whole f) → ok_fleet f es → all_at (whole (frun f es)).
  Proof.
    revert f; induction es as [|[i e] es IH]; intros f Ha; cbn; [done|]. intros [He Hes].
    apply IH; [|done]. by apply fleet_life.
  Qed.
  Lemma whole_after n es : ok_fleet (fleet_init n) es → all_at (whole (fafter n es)).
  Proof. apply whole_run, whole_init. Qed.

  Lemma fleet_ind (E : nat * event M → Prop) (J : nat → pstate → list (job M) → Prop) id f es p :
    (∀ i e k p new k' p' rs, E (i, e) → J k p rs →
       pstep (prof i) (sched i) (clock i) id e k p new k' p' → J k' p' (rs ++ new)) →
    all_at (whole f) → ok_fleet f es → Forall E es → at_ (whole f) id p →
    J (reads (f_world f)) p (f_runs_of id f) →
    ∃ p', at_ (whole (frun f es)) id p' ∧ J (reads (f_world (frun f es))) p' (f_runs_of id (frun f es)).
  Proof.
    intros HJ. revert f p. induction es as [|[i e] es IH]; intros f p Ha Hok HE Hp Hj; [by exists p|].
    cbn in Hok. destruct Hok as [He Hok]. apply Forall_cons_1 in HE as [HEe HE].
    destruct (fleet_life f i e He Ha) as [Ha' Hs]. destruct (Hs id p Hp) as (p' & new & Hp' & Hps & Hr).
    apply (IH (fstep f (i, e)) p' Ha' Hok HE Hp'). rewrite Hr.
    clear -HJ HEe Hps Hj. revert Hj. generalize (f_runs_of id f) as rs.
    induction Hps as [k p|k p n1 k1 p1 n2 k2 p2 H1 H2 IH]; intros rs Hj.
    - by rewrite app_nil_r.
    - rewrite app_assoc. apply IH. by eapply HJ.
  Qed.

  (** *** No job on two processes *)
  Lemma fleet_no_overlap n es :
    ok_fleet (fleet_init n) es → NoDup (map tid (all_tasks (fafter n es))).
  Proof. intros H. exact (all_at_tids name _ (whole_after n es H)). Qed.
  Lemma fleet_pending n es id :
    ok_fleet (fleet_init n) es →
    (cnt id (qlist (f_world (fafter n es)) Queued) + cnt id (qlist (f_world (fafter n es)) Running) <= 1)%nat.
  Proof.
    intros H. destruct (whole_after n es H id) as [p Hp].
    destruct p; cbn in Hp; destruct_and?; cbn in *; lia.
  Qed.

  (** *** The limit *)
  Lemma fleet_limit n es :
    ok_fleet (fleet_init n) es →
    (length (qlist (f_world (fafter n es)) Running) <= limit_of (map snd es))%nat ∧
    ∀ m, m ∈ f_members (fafter n es) → m_alive m = true →
         (max_processing_jobs (m_cfg m) <= limit_of (map snd es))%nat.
  Proof.
    induction es as [|[i e] es IH] using rev_ind; intros Hok.
    { split; [apply le_n|]. intros m Hm. cbn in Hm. apply elem_of_list_In, repeat_spec in Hm as ->. done. }
    apply ok_fleet_app in Hok as [Hok [He _]]. specialize (IH Hok) as [IH1 IH2].
    unfold fleet_after. rewrite fleet_snoc, map_app. cbn [map snd]. rewrite limit_of_snoc.
    change (frun (fleet_init n) es) with (fafter n es) in *. set (f := fafter n es) in *.
    unfold fleet_step. cbn [fst snd]. destruct (f_members f !! i) as [m|] eqn:Em.
    2: { split; [lia|]. intros m Hm Ham. specialize (IH2 m Hm Ham). lia. }
    set (L := Nat.max _ _). set (s' := (sys_step _ _ _ _ _ e).1).
    assert (in_limit name L s') as [H1 H2].
    { assert (in_limit name L (seen_by f m)) as Hi.
      { split; cbn; [lia|]. intros Hal. specialize (IH2 m). rewrite elem_of_list_lookup in IH2.
        specialize (IH2 (ex_intro _ i Em) Hal). lia. }
      assert (rtc (mstep (prof i) (sched i) name (clock i) e) (seen_by f m) s') as Hm.
      { apply sys_step_micro. cbn in He. by destruct e. }
      revert Hi. induction Hm as [|a b c Hm1 Hm2 IHm]; [done|]. intros Hi. apply IHm.
      eapply in_limit_mstep; [|exact Hi|exact Hm1]. lia. }
    split; [exact H1|]. cbn [f_members]. intros m' Hm' Hal.
    apply elem_of_list_lookup in Hm' as [k Hk].
    destruct (decide (k = i)) as [->|Hne].
    - rewrite list_lookup_insert in Hk by (by eapply lookup_lt_Some). injection Hk as <-. exact (H2 Hal).
    - rewrite list_lookup_insert_ne in Hk by done.
      specialize (IH2 m' (elem_of_list_lookup_2 _ _ _ Hk) Hal). lia.
  Qed.
  Lemma fleet_limit_tasks n es :
    ok_fleet (fleet_init n) es →
    (length (all_tasks (fafter n es)) <= length (qlist (f_world (fafter n es)) Running) ∧
     length (qlist (f_world (fafter n es)) Running) <= limit_of (map snd es))%nat.
  Proof.
    intros H. split; [exact (all_at_tasks_le name _ (whole_after n es H))|]. by apply fleet_limit.
  Qed.

  (** *** Status *)
  Lemma fleet_status n es i e id :
    ok_fleet (fleet_init n) (es ++ [(i, e)]) →
    f_status_of (fafter n (es ++ [(i, e)])) id = f_status_of (fafter n es) id ∨
    legal (f_status_of (fafter n es) id) (f_status_of (fafter n (es ++ [(i, e)])) id).
  Proof.
    intros Hok. apply ok_fleet_app in Hok as [Hok [He _]].
    pose proof (whole_after n es Hok) as Ha. unfold fleet_after in *. rewrite fleet_snoc.
    destruct (fleet_life _ i e He Ha) as [Ha' Hs].
    destruct (Ha id) as [p Hp]. destruct (Hs id p Hp) as (p' & new & Hp' & Hps & _).
    destruct (at_pstat _ _ _ _ Hp) as [E Hd]. destruct (at_pstat _ _ _ _ Hp') as [E' _].
    change (f_status_of ?f id) with (status_of (whole f) id). rewrite E, E'.
    destruct (psteps_chg (prof i) (sched i) name (clock i) _ _ _ _ _ _ _ Hps Hd) as [->|[? _]]; auto.
  Qed.

  (** *** run_count *)
  Lemma fleet_submitted f i m j ec :
    all_at (whole f) → ok_fleet_event (f_world f) (EvEnqueue j ec) →
    f_members f !! i = Some m → m_alive m = true →
    stored (f_world f) (jid j) = None ∨
      (∃ ex, stored (f_world f) (jid j) = Some ex ∧ done_status (jstatus (ctx ex)) ∧ re_run ec = true) →
    ∃ t, at_ (whole (fstep f (i, EvEnqueue j ec))) (jid j) (PQueued (norm_job (enq j t))) ∧
         f_runs_of (jid j) (fstep f (i, EvEnqueue j ec)) = f_runs_of (jid j) f.
  Proof.
    intros Ha Hok Em Hal Hs.
    destruct (fleet_life f i _ Hok Ha) as [Ha' Hl].
    destruct (Ha (jid j)) as [p Hp]. destruct (Hl (jid j) p Hp) as (p' & new & Hp' & _ & _).
    exists (ms_of (clock i (reads (f_world f)))).
    assert (f_world (fstep f (i, EvEnqueue j ec)) = do_run name (clock i) (f_world f) j ec ∧
            f_runs (fstep f (i, EvEnqueue j ec)) = f_runs f) as [Ew Er].
    { unfold fleet_step. cbn [fst snd]. rewrite Em. rewrite step_enqueue by done. done. }
    assert (stored (f_world (fstep f (i, EvEnqueue j ec))) (jid j) =
              Some (norm_job (enq j (ms_of (clock i (reads (f_world f)))))) ∧
            jid j ∈ qlist (f_world (fstep f (i, EvEnqueue j ec))) Queued) as [E1 E2].
    { rewrite Ew. destruct Hs as [Hs|(ex & Hs & Hd & Hr)].
      - unfold do_run; rewrite Hs. split.
        + by rewrite stored_do_enqueue, bool_decide_true.
        + rewrite qlist_do_enqueue, bool_decide_true by done. apply elem_of_list_here.
      - apply is_done_iff in Hd. unfold do_run; rewrite Hs, Hr, Hd. cbn [andb]. split.
        + rewrite stored_do_enqueue, bool_decide_true by done.
          by destruct (override_data ec && negb (is_running ex)).
        + rewrite qlist_do_enqueue, bool_decide_true by done. apply elem_of_list_here. }
    destruct (at_waiting _ _ _ _ Hp' E2) as [j' ->].
    assert (j' = norm_job (enq j (ms_of (clock i (reads (f_world f)))))) as ->.
    { cbn in Hp'. destruct_and?. congruence. }
    split; [done|]. unfold f_runs_of. by rewrite Er.
  Qed.

  Lemma fleet_run_count n es1 i m j ec es2 j' :
    let es := es1 ++ (i, EvEnqueue j ec) :: es2 in
    let r := (length (f_runs_of (jid j) (fafter n es)) - length (f_runs_of (jid j) (fafter n es1)))%nat in
    ok_fleet (fleet_init n) es →
    f_members (fafter n es1) !! i = Some m → m_alive m = true → run_count (ctx j) = 0%nat →
    stored (f_world (fafter n es1)) (jid j) = None ∨
      (∃ ex, stored (f_world (fafter n es1)) (jid j) = Some ex ∧ done_status (jstatus (ctx ex)) ∧ re_run ec = true) →
    Forall (λ ie, ¬ submits (jid j) ie.2) es2 →
    stored (f_world (fafter n es)) (jid j) = Some j' →
    (jstatus (ctx j') ≠ Running → run_count (ctx j') = r) ∧
    (jstatus (ctx j') = Running → run_count (ctx j') = r ∨ S (run_count (ctx j')) = r).
  Proof.
    intros es r Hok Em Hal H0 Hs HE Hj'. subst es.
    apply ok_fleet_app in Hok as [Hok1 [He Hok2]].
    pose proof (whole_after n es1 Hok1) as Ha.
    change (frun (fleet_init n) es1) with (fafter n es1) in *.
    destruct (fleet_submitted _ i m j ec Ha He Em Hal Hs) as (t0 & Hp & Hr).
    destruct (fleet_life _ i _ He Ha) as [Ha' _].
    set (f1 := fstep (fafter n es1) (i, EvEnqueue j ec)) in *.
    assert (fafter n (es1 ++ (i, EvEnqueue j ec) :: es2) = frun f1 es2) as E.
    { unfold fleet_after, fleet_run. by rewrite fold_left_app. }
    destruct (fleet_ind (λ ie, ¬ submits (jid j) ie.2)
      (λ _ p rs, counted (length rs - length (f_runs_of (jid j) (fafter n es1))) p ∧
                 (length (f_runs_of (jid j) (fafter n es1)) <= length rs)%nat) (jid j) f1 es2
                 (PQueued (norm_job (enq j t0)))) as (p' & Hp' & Hc & Hle); [|exact Ha'|exact Hok2|exact HE|exact Hp|..].
    { intros i' e k p new k' p' rs Hne [Hc Hle] Hst.
      pose proof (counted_step (prof i') (sched i') name (clock i') _ _ _ _ _ _ _ _ Hne Hc Hst) as Hc'.
      rewrite app_length. split; [|lia].
      replace (length rs + length new - _)%nat
        with (length rs - length (f_runs_of (jid j) (fafter n es1)) + length new)%nat by lia. done. }
    { rewrite Hr. split; [|done]. rewrite Nat.sub_diag. done. }
    rewrite <-E in Hp', Hc. fold r in Hc.
    assert (∀ (j : job M), is_done j = true → jstatus (ctx j) = Running → False) as Hdr.
    { intros a Ha1 Ha2. unfold is_done in Ha1. by rewrite Ha2 in Ha1. }
    destruct p' as [|q|q|t|q|q]; cbn in Hp', Hc; destruct_and?; cbn in *.
    - done.
    - assert (j' = q) as -> by congruence. split; [done|congruence].
    - assert (j' = q) as -> by congruence. split; [done|congruence].
    - assert (j' = t_orig t) as -> by congruence.
      match goal with H : task_ok t |- _ => destruct H as (_ & Hrun & _) end.
      split; [congruence|]. intros _. destruct (t_phase t); tauto.
    - assert (j' = q) as -> by congruence. split; [congruence|done].
    - assert (j' = q) as -> by congruence. split; [done|]. intros; exfalso; eauto.
  Qed.
End many.
