(** Consequences of crashes, panics and backend faults. *)
From Verif Require Import Spec JsonFacts BackendFacts WorldFacts MicroFacts LifeFacts HistFacts
  SubmitFacts PickFacts StarveFacts ApiFacts FaultFacts OrphanFacts.

Section crash.
  Context {M : Type} `{SM : Serde M} {SO : SerdeOk M}.
  Context (prof : profile).
  Context (sched : string → option (time → option time)).
  Context (name : string).
  Context (clock : nat → time).
  Notation h := (mem_h clock).
  Notation qlist := (qlist name).
  Notation stored := (@stored M SM).
  Notation sys := (sys world M).
  Notation step := (sys_step prof sched name h).
  Notation go := (sys_run prof sched name h).
  Notation ok_hist := (ok_hist prof sched name clock).
  Notation after := (after prof sched name clock).
  Notation all_at := (all_at name).
  Notation at_ := (at_ name).

  (** *** An acknowledged job is not lost before its first run *)
  Lemma not_lost faults es1 j ec es2 :
    let s1 := fafter prof sched name clock faults es1 in
    let s := fafter prof sched name clock faults (es1 ++ EvEnqueue j ec :: es2) in
    (sys_step prof sched name (faulty_h clock faults) s1 (EvEnqueue j ec)).2 = RUnit (Ok tt) →
    (∀ e, e ∈ es1 ++ es2 → ¬ cancels (jid j) e) →
    jid j ∈ qlist (fw (sw s)) Queued ∨ jid j ∈ qlist (fw (sw s)) Running ∨ jid j ∈ map jid (runs s).
  Proof.
    intros s1 s Hr Hc.
    set (C := λ k, ∃ e, e ∈ es1 ++ es2 ∧ cancels k e).
    assert (J name C (λ _, False) s1) as J1.
    { apply J_run.
      - intros k e He Hk. exists e. split; [apply elem_of_app; by left|done].
      - split; [|apply tasks_ok_nil]. split; done. }
    pose proof (J_enqueue prof sched name clock C (λ _, False) faults s1 j ec J1 Hr) as Hg.
    pose proof (J_step prof sched name clock C (λ _, False) faults s1 (EvEnqueue j ec)
      (λ k Hk, match Hk with end) J1) as J2.
    set (s2 := (sys_step prof sched name (faulty_h clock faults) s1 (EvEnqueue j ec)).1) in *.
    assert (J name C (λ k, k = jid j) s2) as J3.
    { destruct J2 as [[_ H1] H2]. split; [|done]. split; [|done]. by intros k ->. }
    assert (s = sys_run prof sched name (faulty_h clock faults) s2 es2) as ->.
    { unfold s, fafter, sys_run. by rewrite fold_left_app. }
    apply (J_run prof sched name clock C (λ k, k = jid j) faults s2 es2) in J3.
    - destruct J3 as [[H1 _] _]. destruct (H1 (jid j) eq_refl) as [(e&He&Hk)|H]; [|done].
      exfalso. by eapply Hc.
    - intros k e He Hk. exists e. split; [apply elem_of_app; by right|done].
  Qed.

  (** *** Orphans *)
  Lemma at_orphan (s : sys) id :
    all_at s → id ∈ qlist (sw s) Running → tasks_of id s = [] →
    ∃ j, stored (sw s) id = Some j ∧ jstatus (ctx j) = Running ∧ OS name id j True s.
  Proof.
    intros Ha Hin Ht. destruct (Ha id) as [p Hp]. apply cnt_pos in Hin.
    destruct p as [|j|j|t|j|j]; cbn in Hp; try (exfalso; destruct Hp as ((?&?&?&?)&?); lia).
    - exfalso. destruct Hp as (?&?&?&?). lia.
    - exfalso. destruct Hp as ((_&_&_&H)&_). congruence.
    - destruct Hp as ((H1&H2&H3&H4)&H5&_&H6). exists j. split; [done|]. split; [done|]. split.
      + split; [exact (all_at_keyed name s Ha)|]. split; [done|]. split; [by apply is_running_status|].
        split; [intros _; apply cnt_pos; lia|]. by apply cnt_0.
      + apply list.Forall_forall. intros t Hin2.
        assert (tid t ≠ id) as Hne.
        { intros E. assert (t ∈ tasks_of id s) as HH by by apply elem_of_list_filter.
          rewrite Ht in HH. by apply elem_of_nil in HH. }
        apply elem_of_list_lookup in Hin2 as [i Hi].
        pose proof (at_task_of name s i t Ha Hi) as Hat. cbn in Hat.
        destruct Hat as (_&_&Hok). destruct (task_ok_jid t Hok) as [E _].
        unfold other_task. by rewrite E.
  Qed.
  Ltac drun := match goal with |- context [run ?a ?b ?c] => destruct (run a b c) as [w' [r'| |]] end.
  Lemma dead_step (s : sys) e : (alive s = false → tasks s = []) → alive (step s e).1 = false → tasks (step s e).1 = [].
  Proof.
    intros H. unfold sys_step. destruct (alive s) eqn:Ea.
    - unfold commit. destruct e; try done; try (by cbn; rewrite Ea);
        (drun; [destruct r' as [[[c' ts] js] r]| |]; cbn; done).
    - destruct e as [| | | | | | | | |e n|]; try (by intros _; apply H).
      + destruct e; try done; by intros _; apply H.
      + unfold commit. drun; [destruct r' as [[[c' ts] js] r]| |]; cbn; done.
  Qed.
  Lemma dead_tasks es : alive (after es) = false → tasks (after es) = [].
  Proof.
    induction es as [|e es IH] using rev_ind; [done|]. rewrite snoc_after. by apply dead_step.
  Qed.
  Lemma interrupted es1 t e es2 :
    ok_hist initial es1 → t ∈ tasks (after es1) → e = EvCrash ∨ e = EvPanic →
    let s := after (es1 ++ e :: es2) in
    status_of s (tid t) = Some Running ∧ tid t ∈ qlist (sw s) Running ∧ tid t ∉ qlist (sw s) Queued ∧
    tasks_of (tid t) s = [] ∧ runs_of (tid t) s = runs_of (tid t) (after es1).
  Proof.
    intros Hok Hin He s. unfold s. rewrite app_after, go_cons. set (s1 := after es1) in *.
    assert (all_at s1) as Ha by by apply (all_at_after prof sched name clock).
    assert (tid t ∈ qlist (sw s1) Running) as Hr.
    { apply elem_of_list_lookup in Hin as [i Hi]. pose proof (at_task_of name s1 i t Ha Hi) as Hat.
      cbn in Hat. destruct Hat as ((_&_&H&_)&_). apply cnt_pos. lia. }
    assert (alive s1 = true) as Hal.
    { destruct (alive s1) eqn:E; [done|]. apply dead_tasks in E. fold s1 in E. rewrite E in Hin. by apply elem_of_nil in Hin. }
    set (s2 := (step s1 e).1).
    assert (s2 = Sys (sw s1) (cfg s1) [] false (runs s1)) as E2.
    { unfold s2, sys_step. rewrite Hal. by destruct He as [-> | ->]. }
    assert (all_at s2) as Ha2.
    { apply (life_step prof sched name clock s1 e); [by destruct He as [-> | ->]|done]. }
    destruct (at_orphan s2 (tid t) Ha2) as (j&H1&H2&H3); [by rewrite E2|by rewrite E2|].
    destruct (orphan_run prof sched name clock (tid t) j True s2 es2 H3) as [[H4 H5] H6].
    destruct H4 as (_&H7&H8&H9&H10). specialize (H9 ltac:(done)).
    split. { unfold status_of. rewrite H7. cbn. by rewrite H2. }
    split; [done|]. split; [done|]. split.
    - unfold tasks_of. clear -H5. induction H5 as [|t' l [Hn _] _ IH]; [done|]. by rewrite filter_cons_False.
    - rewrite H6, E2. done.
  Qed.

  (** *** Lost slots *)
  Lemma process_full c (ts : list (task M)) w :
    (max_processing_jobs c <= length (qlist w Running))%nat →
    run h (process_jobs prof name c ts) w = (w, Done ts).
  Proof.
    intros H. unfold process_jobs, pick_jobs_to_process. rewrite !run_bind. cbn -[max_processing_jobs].
    rewrite mem_count_spec. rewrite qlist_ql in H. rewrite (proj2 (Nat.leb_le _ _) H). cbn. by rewrite app_nil_r.
  Qed.
  Lemma process_full_n n c (ts : list (task M)) w (f : _ → prog (wq_config * list (task M) * list (job M) * response M)) :
    (max_processing_jobs c <= length (qlist w Running))%nat → (∀ x, ∃ y, f x = Ret y) →
    run_n h n (bind (process_jobs prof name c ts) f) w = w.
  Proof.
    intros H Hf. unfold process_jobs, pick_jobs_to_process. destruct n as [|n]; [done|].
    cbn -[max_processing_jobs].
    rewrite mem_count_spec. rewrite qlist_ql in H. rewrite (proj2 (Nat.leb_le _ _) H). cbn.
    destruct (Hf (ts ++ [])) as [y ->]. by destruct n.
  Qed.

  Lemma slots_lost L (ids : list string) (s : sys) es :
    NoDup ids → (20 <= L <= length ids)%nat →
    (∀ id, id ∈ ids → ∃ j, OS name id j True s) → tasks s = [] → (max_processing_jobs (cfg s) <= L)%nat →
    Forall (below L) es → tasks (go s es) = [] ∧ runs (go s es) = runs s.
  Proof.
    intros Hnd [HL1 HL2]. revert s. induction es as [|e es IH]; intros s Hids Ht Hc Hb; [done|].
    apply Forall_cons_1 in Hb as [Hb1 Hb]. rewrite go_cons.
    assert (length ids <= length (qlist (sw s) Running))%nat as Hlen.
    { apply submseteq_length, NoDup_submseteq; [done|]. intros id Hid.
      destruct (Hids id Hid) as (j&(_&_&_&H&_)&_). by apply H. }
    assert (tasks (step s e).1 = [] ∧ runs (step s e).1 = runs s ∧
            (max_processing_jobs (cfg (step s e).1) <= L)%nat) as (H1&H2&H3).
    { assert (∀ e, below L e → let s' := (commit prof sched name h s e).1 in
        tasks s' = [] ∧ runs s' = runs s ∧ (max_processing_jobs (cfg s') <= L)%nat) as Hcm.
      { intros e' Hb'. unfold commit. rewrite Ht. destruct e' as [j ec|k|k|k|c'| |i u| | |e' n|]; cbn [ev_prog].
        all: rewrite ?run_bind; try rewrite process_full by lia.
        all: rewrite ?lookup_nil; try (cbn; rewrite app_nil_r; done).
        all: try (drun; cbn; rewrite ?app_nil_r; done).
        - rewrite process_full by (cbn; lia). cbn. by rewrite app_nil_r. }
      unfold sys_step. destruct (alive s).
      - destruct e; try (by apply Hcm); done.
      - destruct e; try (by apply Hcm); try done. destruct e; done. }
    rewrite <- H2. apply IH; try done. intros id Hid. destruct (Hids id Hid) as (j&Hj). exists j.
    by apply orphan_step.
  Qed.
  Lemma slots_never_freed es1 e es2 :
    ok_hist initial es1 → e = EvCrash ∨ e = EvPanic → (20 <= length (qlist (sw (after es1)) Running))%nat →
    (max_processing_jobs (cfg (after es1)) <= length (qlist (sw (after es1)) Running))%nat →
    Forall (below (length (qlist (sw (after es1)) Running))) es2 →
    alive (after es1) = true →
    let s := after (es1 ++ e :: es2) in tasks s = [] ∧ runs s = runs (after es1).
  Proof.
    intros Hok He H20 Hc Hb Hal s. unfold s. rewrite app_after, go_cons.
    set (s1 := after es1) in *.
    assert (all_at s1) as Ha by by apply (all_at_after prof sched name clock).
    set (s2 := (step s1 e).1).
    assert (s2 = Sys (sw s1) (cfg s1) [] false (runs s1)) as E2.
    { unfold s2, sys_step. rewrite Hal. by destruct He as [-> | ->]. }
    assert (all_at s2) as Ha2.
    { apply (life_step prof sched name clock s1 e); [by destruct He as [-> | ->]|done]. }
    assert (runs s1 = runs s2) as -> by by rewrite E2.
    assert (qlist (sw s1) Running = qlist (sw s2) Running) as EQ by by rewrite E2.
    apply (slots_lost (length (qlist (sw s2) Running)) (qlist (sw s2) Running)).
    - apply cnt_nodup. intros id. destruct (Ha2 id) as [p Hp].
      destruct p; cbn in Hp; (destruct Hp as ((_&_&->&_)&_) || destruct Hp as (_&_&->&_)); lia.
    - rewrite EQ in H20. lia.
    - intros id Hid. destruct (at_orphan s2 id Ha2 Hid) as (j&_&_&?); [by rewrite E2|eauto].
    - by rewrite E2.
    - rewrite EQ in Hc. by rewrite E2 in Hc |- *.
    - by rewrite EQ in Hb.
  Qed.

  (** *** Picked jobs are executed *)
  Definition served (s : sys) : Prop := ∀ id, id ∈ qlist (sw s) Running → tasks_of id s ≠ [].
  Lemma served_mstep e (s s' : sys) :
    mstep prof sched name clock e s s' → match e with EvTask _ _ => False | _ => True end →
    alive s' = true → all_at s → served s → served s'.
  Proof.
    intros Hm He Hal Ha Hs. destruct Hm; subst; try done; unfold served, tasks_of in *; cbn [sw tasks] in *.
    - intros id. rewrite H0. apply Hs.
    - intros id. rewrite qlist_do_enqueue. cbn. destruct (stored w (jid j)) as [ex|].
      + destruct H0 as (_&_&->). destruct (override_data ec); rewrite ?qlist_put; apply Hs.
      + subst. apply Hs.
    - intros id. rewrite qlist_put. apply Hs.
    - intros k. rewrite qlist_rem. rewrite bool_decide_false by done. rewrite qlist_save. apply Hs.
    - intros k. rewrite qlist_do_re_enqueue. cbn. apply is_done_status in H1.
      rewrite !bool_decide_false; [apply Hs| |done]. intros E. rewrite <- E in H1. naive_solver.
    - rename l into l0. intros k. rewrite (qlist_pick name _ l0 id).
      2:{ by rewrite qlist_save. }
      rewrite qlist_save. cbn. rewrite list.filter_app. rewrite elem_of_cons. intros [->|Hk].
      + intros E. apply app_nil in E as [_ E]. rewrite filter_cons_True in E; [done|].
        exact (all_at_keyed name _ Ha id j H1).
      + intros E. apply app_nil in E as [E _]. by eapply Hs.
  Qed.
  Lemma dead_stays (s : sys) e : calm e → alive s = false → alive (step s e).1 = false.
  Proof. intros Hc Ha. unfold sys_step. rewrite Ha. by destruct e. Qed.
  Lemma served_step (s : sys) e :
    calm e → ok_event s e → all_at s → served s → alive (step s e).1 = true → served (step s e).1.
  Proof.
    intros Hc Hok Ha Hs Hal.
    assert (alive s = true) as Hal0.
    { destruct (alive s) eqn:E; [done|]. rewrite (dead_stays s e Hc E) in Hal. done. }
    assert (match e with EvTask _ _ | EvEnqueue _ _ => False | _ => True end → served (step s e).1) as Hgen.
    { intros He. assert (rtc (mstep prof sched name clock e) s (step s e).1) as Hm.
      { apply sys_step_micro; by destruct e. }
      clear Hal0 Hok. revert Hal Ha Hs. induction Hm as [s0|s0 s1 s2 H1 H2 IH]; intros Hal Ha Hs; [done|].
      assert (alive s1 = true) as Hal1.
      { destruct (alive s1) eqn:E1; [done|]. exfalso. clear -E1 H2 Hal Hc.
        induction H2 as [s1|s1 s2 s3 H1 H2 IH]; [congruence|]. apply IH; [done|].
        destruct H1; try done. by subst. }
      apply IH; [done| |].
      - eapply (mstep_all_at prof sched name clock); [exact Ha| |exact H1]. by destruct e.
      - eapply served_mstep; try done. by destruct e. }
    destruct e as [j ec|k|k|k|c'| |i u| | |e' n|]; try (by apply Hgen).
    - eapply served_mstep; [apply micro_enqueue|done..].
    - clear Hgen. destruct (tasks s !! i) as [t|] eqn:Et.
      2:{ unfold sys_step in *. rewrite Hal0 in *. unfold commit in *. cbn [ev_prog] in *. by rewrite Et in *. }
      pose proof (at_task_of name s i t Ha Et) as Hat. cbn in Hat. destruct Hat as ((_&_&Hr&Hts)&_&Htok).
      destruct (task_ok_jid t Htok) as [Hjid Hst].
      assert (is_cancelled (t_job t) = false) as Hcn.
      { unfold is_cancelled. by rewrite Hst. }
      rewrite (step_task prof sched name clock s i t u Hal0 Et Hcn) in Hal |- *.
      assert (∀ t', tid t' = tid t → ∀ id, tasks_of id s ≠ [] →
        filter (λ t0, tid t0 = id) (<[i:=t']> (tasks s)) ≠ []) as Hins.
      { intros t' Ht' id Hid. unfold tasks_of in Hid. destruct (task_split _ _ _ Et) as (l1&l2&E&_&Hi).
        rewrite (tasks_of_split _ _ _ _ id (Hi t')). rewrite (tasks_of_split _ _ _ _ id E) in Hid.
        rewrite Ht'. intros E2. apply Hid. apply app_nil in E2 as [-> E2].
        destruct (bool_decide _); [done|]. exact E2. }
      destruct (t_phase t); cbv zeta in *.
      + intros id Hid. cbn in *. apply Hins; [done|]. by apply Hs.
      + intros id Hid. cbn in *. apply Hins; [done|]. by apply Hs.
      + intros id Hid. cbn in *. apply Hins; [done|]. by apply Hs.
      + assert (∀ w', (∀ id, id ∈ qlist w' Running → id ≠ tid t ∧ id ∈ qlist (sw s) Running) →
          ∀ c rs, served (Sys w' c (delete i (tasks s)) true rs)) as Hdel.
        { intros w' Hw c rs id Hid. apply Hw in Hid as [Hne Hid]. unfold tasks_of. cbn.
          rewrite (tasks_of_delete_ne (tasks s) i t id Et) by congruence. by apply Hs. }
        unfold do_tail in *. destruct (judge prof sched clock (reads (sw s)) (t_job t) u) as [k1 v] eqn:Ej.
        apply judge_spec in Ej as [_ Hv]. cbn [fst snd] in *.
        destruct v as [nj|nj|nj|]; [..|done]; destruct Hv as [Hv1 Hv2]; apply Hdel; intros id; cbn [do_verdict].
        * rewrite qlist_do_re_enqueue. cbn. rewrite Hv2, Hst.
          rewrite (bool_decide_false (Running = Queued)), bool_decide_true by done.
          rewrite elem_of_list_filter, Hv1, Hjid. done.
        * rewrite qlist_do_fail. rewrite elem_of_list_filter, Hv1, Hjid. done.
        * rewrite qlist_do_finish. rewrite elem_of_list_filter, Hv1, Hjid. done.
  Qed.
  Lemma picked_served es :
    ok_hist initial (EvStart :: es) → Forall calm es → alive (after (EvStart :: es)) = true →
    served (after (EvStart :: es)).
  Proof.
    induction es as [|e es IH] using rev_ind; intros Hok Hc Hal.
    - intros id. assert (qlist (sw (after [EvStart])) Running = []) as ->; [by destruct prof|].
      intros H. by apply elem_of_nil in H.
    - rewrite app_comm_cons in *. rewrite snoc_after in *. apply ok_snoc in Hok as [Hok He].
      apply Forall_app in Hc as [Hc Hce]. apply Forall_cons_1 in Hce as [Hce _].
      apply served_step; try done.
      + by apply (all_at_after prof sched name clock).
      + apply IH; try done. destruct (alive (after (EvStart :: es))) eqn:E; [done|].
        rewrite (dead_stays _ e Hce E) in Hal. done.
  Qed.

  (** *** Crashes inside run() *)
  Definition crashed (s : sys) (e : event M) (n : nat) : sys := (step s (EvCrashIn e n)).1.
  Lemma crash_in_run (s : sys) (j : job M) c n :
    alive s = true → stored (sw s) (jid j) = None → jid j ∉ qlist (sw s) Queued →
    let w := sw (crashed s (EvEnqueue j c) n) in
    (n <= 1 → w = sw s)%nat ∧
    ((2 <= n <= 3)%nat → qlist w Queued = jid j :: qlist (sw s) Queued ∧ stored w (jid j) = None) ∧
    ((4 <= n)%nat → qlist w Queued = jid j :: qlist (sw s) Queued ∧
       ∃ j', stored w (jid j) = Some j' ∧ jstatus (ctx j') = Queued).
  Proof.
    intros Ha Hs Hq w.
    assert (w = run_n h n (ev_prog prof sched name (cfg s) (tasks s) (EvEnqueue j c)) (sw s)) as Ew.
    { unfold w, crashed, sys_step. by rewrite Ha. }
    clearbody w.
    assert (∀ m, run_n h (S m) (ev_prog prof sched name (cfg s) (tasks s) (EvEnqueue j c)) (sw s) =
      run_n h m (let! r := enqueue name j in Ret (cfg s, tasks s, @nil (job M), RUnit (M := M) r)) (sw s)) as H1.
    { intros m. cbn [ev_prog]. unfold run_with_config, get_from_storage. cbn -[enqueue].
      unfold Spec.stored in Hs. unfold STORAGE_HASH in *. rewrite Hs. done. }
    set (w1 := w_push name (sw s) Queued (jid j)).
    set (jq := enq j (now_ms clock w1)).
    assert (qlist w1 Queued = jid j :: qlist (sw s) Queued) as Hq1.
    { unfold w1. by rewrite qlist_push, bool_decide_true. }
    destruct n as [|[|[|[|n]]]].
    - split; [done|]. split; lia.
    - rewrite H1 in Ew. split; [done|]. split; lia.
    - rewrite H1 in Ew. split; [lia|]. split; [|lia]. intros _. change (w = w1) in Ew. rewrite Ew.
      split; [done|]. unfold w1. by rewrite stored_push.
    - rewrite H1 in Ew. split; [lia|]. split; [|lia]. intros _. change (w = w_tick w1) in Ew. rewrite Ew.
      split; [done|]. rewrite stored_tick. unfold w1. by rewrite stored_push.
    - rewrite H1 in Ew. split; [lia|]. split; [lia|]. intros _.
      assert (w = w_put (w_tick w1) jq ∨ w = w_save (w_tick w1) jq) as [-> | ->].
      { destruct n as [|[|n]]; [left|right|right]; rewrite Ew; reflexivity. }
      + rewrite qlist_put, qlist_tick, Hq1. split; [done|]. exists (norm_job jq).
        rewrite stored_put, bool_decide_true by done. done.
      + rewrite qlist_save, qlist_tick, Hq1. split; [done|]. exists (norm_job jq).
        rewrite stored_save, bool_decide_true by done. done.
  Qed.
  Lemma repeat_duplicates (s : sys) (j : job M) c :
    alive s = true → stored (sw s) (jid j) = None → jid j ∈ qlist (sw s) Queued →
    let s' := (step s (EvEnqueue j c)).1 in
    times_in name s' Queued (jid j) = S (times_in name s Queued (jid j)).
  Proof.
    intros Ha Hs Hq s'. unfold s'. rewrite step_enqueue by done. cbn. unfold times_in. cbn.
    unfold do_run. rewrite Hs. rewrite qlist_do_enqueue, bool_decide_true by done.
    by rewrite filter_cons_True.
  Qed.

  (** *** A dead queue *)
  Lemma dead_forever (s : sys) es :
    alive s = false → Forall no_start es →
    go s es = s ∧ ∀ e, no_start e → step (go s es) e = (s, dead_response e).
  Proof.
    intros Ha. assert (∀ e, no_start e → step s e = (s, dead_response e)) as Hd.
    { intros e He. unfold sys_step. rewrite Ha. destruct e as [| | | | | | | | |e n|]; try done. by destruct e. }
    intros Hes. assert (go s es = s) as ->; [|done].
    induction Hes as [|e es He Hes IH]; [done|]. rewrite go_cons, Hd; done.
  Qed.

  (** *** Failing reads *)
  Notation fsys := (Sys.sys fworld M).
  Notation fstep faults := (sys_step prof sched name (faulty_h clock faults)).
  Lemma failing_read faults (w : fworld) k :
    faults (ops w) ≠ FOk →
    run (faulty_h clock faults) (get_from_storage (M:=M) k) w = (FWorld (fw w) (S (ops w)), Done (Ok None)).
  Proof.
    intros Hf. unfold get_from_storage. rewrite run_bind. cbn -[faulty_h]. unfold faulty_h. cbn [fail_ans].
    destruct (faults (ops w)); done.
  Qed.
  Definition later (s : fsys) : fsys :=
    Sys (FWorld (fw (sw s)) (S (ops (sw s)))) (cfg s) (tasks s) (alive s) (runs s).
  Lemma failing_cancel faults (s : fsys) id :
    alive s = true → faults (ops (sw s)) ≠ FOk →
    fstep faults s (EvCancel id) = (later s, RUnit (Ok tt)) ∧
    fstep faults s (EvRetry id) = (later s, RBool (Ok false)) ∧
    fstep faults s (EvGet id) = (later s, RJob None).
  Proof.
    intros Ha Hf. unfold later, sys_step. rewrite Ha. unfold commit. cbn [ev_prog].
    unfold cancel_job, retry_job, get_job. rewrite !run_bind, !failing_read by done. cbn. by rewrite !app_nil_r.
  Qed.
  Lemma good_enqueue faults w n (j : job M) :
    faults n = FOk → faults (S n) = FOk →
    run (faulty_h clock faults) (enqueue name j) (FWorld w n) =
    (FWorld (do_enqueue name clock w j) (S (S n)), Done (Ok tt)).
  Proof.
    intros H1 H2. unfold enqueue. cbn -[faulty_h].
    unfold faulty_h at 1. cbn [fail_ans ops]. rewrite H1.
    cbn -[faulty_h]. unfold faulty_h at 1. cbn [fail_ans ops fw]. cbn -[faulty_h].
    unfold faulty_h at 1. cbn [fail_ans ops fw]. rewrite H2. cbn. done.
  Qed.
  Lemma failing_run faults (s : fsys) (j : job M) c :
    let n := ops (sw s) in
    alive s = true → faults n ≠ FOk → faults (S n) = FOk → faults (S (S n)) = FOk →
    let r := fstep faults s (EvEnqueue j c) in
    r.2 = RUnit (Ok tt) ∧
    qlist (fw (sw r.1)) Queued = jid j :: qlist (fw (sw s)) Queued ∧
    ∃ j', stored (fw (sw r.1)) (jid j) = Some j' ∧ jstatus (ctx j') = Queued.
  Proof.
    intros n Ha Hf0 Hf1 Hf2. unfold sys_step. rewrite Ha. unfold commit. cbn [ev_prog].
    unfold run_with_config. rewrite !run_bind, failing_read, good_enqueue by done. cbn.
    rewrite qlist_do_enqueue, bool_decide_true by done. split; [done|]. split; [done|].
    rewrite stored_do_enqueue, bool_decide_true by done. by eexists.
  Qed.

  (** *** Any orphan *)
  Lemma limbo_stays (held : Prop) (s : sys) id (j : job M) es :
    (∀ k j', stored (sw s) k = Some j' → jid j' = k) →
    stored (sw s) id = Some j → jstatus (ctx j) = Running →
    (held → id ∈ qlist (sw s) Running) → id ∉ qlist (sw s) Queued →
    (∀ t, t ∈ tasks s → jid (t_orig t) ≠ id ∧ jid (t_job t) ≠ id) →
    stored (sw (go s es)) id = Some j ∧ runs_of id (go s es) = runs_of id s ∧
    (held → id ∈ qlist (sw (go s es)) Running) ∧ id ∉ qlist (sw (go s es)) Queued.
  Proof.
    intros H1 H2 H3 H4 H5 H6.
    destruct (orphan_run prof sched name clock id j held s es) as [[H7 _] H8].
    - split; [|by apply list.Forall_forall]. split; [done|]. split; [done|]. split; [by apply is_running_status|done].
    - destruct H7 as (_&H9&_&H10&H11). done.
  Qed.
  Lemma orphan_stays (s : sys) id (j : job M) es :
    (∀ k j', stored (sw s) k = Some j' → jid j' = k) →
    stored (sw s) id = Some j → jstatus (ctx j) = Running →
    id ∈ qlist (sw s) Running → id ∉ qlist (sw s) Queued →
    (∀ t, t ∈ tasks s → jid (t_orig t) ≠ id ∧ jid (t_job t) ≠ id) →
    stored (sw (go s es)) id = Some j ∧ runs_of id (go s es) = runs_of id s ∧
    id ∈ qlist (sw (go s es)) Running.
  Proof.
    intros H1 H2 H3 H4 H5 H6. destruct (limbo_stays True s id j es) as (?&?&?&_); auto.
  Qed.
  Lemma keyed_faulty faults es :
    ∀ k (j : job M), stored (fw (sw (fafter prof sched name clock faults es))) k = Some j → jid j = k.
  Proof.
    intros k j Hj.
    assert (J name (λ _, True) (λ _, False) (fafter prof sched name clock faults es)) as [[_ H] _].
    { apply J_run; [done|]. split; [|apply tasks_ok_nil]. split; done. }
    by apply H in Hj as [? _].
  Qed.
End crash.
