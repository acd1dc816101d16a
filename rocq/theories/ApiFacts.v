(** API calls in reachable states. *)
From Verif Require Import Spec JsonFacts BackendFacts WorldFacts MicroFacts LifeFacts HistFacts SubmitFacts LifeProps ListFacts.

Section api.
  Context {M : Type} `{SM : Serde M} {SO : SerdeOk M}.
  Context (prof : profile).
  Context (sched : string → option (time → option time)).
  Context (name : string).
  Context (clock : nat → time).
  Notation h := (mem_h clock).
  Notation qlist := (qlist name).
  Notation stored := (@stored M SM).
  Notation sys := (sys world M).
  Notation step := (sys_step prof sched name h).
  Notation update := (update_job prof sched name h).
  Notation at_ := (at_ name).
  Notation all_at := (all_at name).
  Notation ok_event := (@ok_event M SM).
  Notation ok_hist := (ok_hist prof sched name clock).
  Notation go := (sys_run prof sched name h).
  Notation after := (after prof sched name clock).
  Notation times_in := (times_in name).
  Notation only_id := (only_id name).

  Lemma snoc_after es e : after (es ++ [e]) = (step (after es) e).1.
  Proof. unfold after. apply go_snoc. Qed.
  Lemma app_after es es' : after (es ++ es') = go (after es) es'.
  Proof. unfold after. apply go_app. Qed.
  Lemma ok_snoc es e : ok_hist initial (es ++ [e]) → ok_hist initial es ∧ ok_event (after es) e.
  Proof. intros H. apply ok_hist_app in H as [H1 [H2 _]]. done. Qed.
  Lemma ok_split es e es' :
    ok_hist initial (es ++ e :: es') →
    ok_hist initial es ∧ ok_event (after es) e ∧ ok_hist (step (after es) e).1 es'.
  Proof. intros H. apply ok_hist_app in H as [H1 [H2 H3]]. done. Qed.

  (** Re-submitting a done job: exactly one pending execution. *)
  Lemma rerun_pending es j ec :
    ok_hist initial (es ++ [EvEnqueue j ec]) → alive (after es) = true →
    stored (sw (after es)) (jid j) = None ∨
      (∃ ex, stored (sw (after es)) (jid j) = Some ex ∧ done_status (jstatus (ctx ex)) ∧ re_run ec = true) →
    let s' := after (es ++ [EvEnqueue j ec]) in
    times_in s' Queued (jid j) = 1%nat ∧ times_in s' Running (jid j) = 0%nat.
  Proof.
    intros Hok Hal Hs s'. apply ok_snoc in Hok as [Hok He]. subst s'. rewrite snoc_after.
    pose proof (all_at_after prof sched name clock es Hok) as Ha.
    destruct (at_submitted prof sched name clock _ _ _ Ha He Hal Hs) as (t & Hp & _).
    cbn in Hp. tauto.
  Qed.

  (** Submitting over a done job without re-running: no execution. *)
  Lemma skip_never_runs es j ec ex es' :
    ok_hist initial (es ++ EvEnqueue j ec :: es') → 
    stored (sw (after es)) (jid j) = Some ex → done_status (jstatus (ctx ex)) → re_run ec = false →
    Forall (λ e, ¬ revives (jid j) e) es' →
    runs_of (jid j) (after (es ++ EvEnqueue j ec :: es')) = runs_of (jid j) (after es).
  Proof.
    intros Hok Hs Hd Hr HE. apply ok_split in Hok as (Hok & He & Hok').
    pose proof (all_at_after prof sched name clock es Hok) as Ha.
    destruct (life_step prof sched name clock _ _ He Ha) as [Ha' Hl].
    destruct (Ha (jid j)) as [p Hp]. apply is_done_iff in Hd.
    assert (p = PDone ex) as -> by (by eapply at_done).
    pose proof (micro_enqueue prof sched name clock (after es) j ec) as Hm.
    destruct (life_mstep prof sched name clock _ _ _ Ha He Hm _ _ Hp) as (p' & new & Hp' & Hps & Hrs).
    assert (asleep p' ∧ new = []) as [Has ->].
    { clear -Hps Hr. inversion Hps; subst; cbn in *; try done; try congruence;
        repeat match goal with H : EvEnqueue _ _ = EvEnqueue _ _ |- _ => injection H as -> -> end.
      naive_solver congruence. }
    rewrite app_after, go_cons.
    destruct (asleep_stays prof sched name clock _ _ _ es' Ha' Hok' Hp' Has HE) as [E _].
    rewrite E, Hrs. by rewrite app_nil_r.
  Qed.

  (** After a cancel that took effect. *)
  Lemma canceled_never_runs es id es' :
    ok_hist initial (es ++ EvCancel id :: es') → alive (after es) = true →
    status_of (after es) id = Some Queued →
    Forall (λ e, ¬ revives id e) es' →
    runs_of id (after (es ++ EvCancel id :: es')) = runs_of id (after es) ∧
    status_of (after (es ++ EvCancel id :: es')) id = Some Canceled ∧
    tasks_of id (after (es ++ EvCancel id :: es')) = [].
  Proof.
    intros Hok Hal Hs HE. apply ok_split in Hok as (Hok & He & Hok').
    pose proof (all_at_after prof sched name clock es Hok) as Ha.
    destruct (life_step prof sched name clock _ _ He Ha) as [Ha' Hl].
    unfold status_of in Hs. apply fmap_Some in Hs as (j & Hs & Hq). symmetry in Hq. cbn in Hq.
    pose proof (key_id _ _ _ _ Ha Hs) as Hid.
    destruct (cancel_queued prof sched name clock (after es) id j Hal Hs Hid Hq) as (_ & (j' & t & Hs' & Hrb) & _ & Ho).
    assert (is_done j' = true) as Hd'.
    { destruct Hrb as (_ & _ & _ & E & _). cbn in E. unfold is_done. by rewrite E. }
    destruct (Ha' id) as [p' Hp']. assert (p' = PDone j') as -> by (by eapply at_done).
    rewrite app_after, go_cons.
    destruct (done_stays prof sched name clock _ _ _ es' Ha' Hok' Hp' HE) as [E Hp2].
    split; [|split].
    - rewrite E. unfold runs_of. destruct Ho as (_ & _ & _ & -> & _). done.
    - destruct (at_pstat _ _ _ _ Hp2) as [-> _]. cbn. destruct Hrb as (_ & _ & _ & E2 & _). cbn in E2. by rewrite E2.
    - cbn in Hp2. tauto.
  Qed.

  (** update_job on a queued job. *)
  Lemma normal_data (j : job M) (d : M) : normal j → norm_job (Job (ctx j) d) = Job (ctx j) d.
  Proof. unfold normal, norm_job. destruct j as [c x]. cbn. intros [= ->]. done. Qed.
  Lemma update_queued es id (j : job M) (d : M) :
    ok_hist initial es → alive (after es) = true →
    stored (sw (after es)) id = Some j → jstatus (ctx j) = Queued →
    let r := update (after es) id d None in
    r.2 = RUnit (Ok tt) ∧
    stored (sw r.1) id = Some (Job (ctx j) d) ∧
    (∀ st, qlist (sw r.1) st = qlist (sw (after es)) st) ∧ only_id id (after es) r.1 ∧
    ∀ es', ok_hist r.1 es' → Forall (λ e, ¬ submits id e) es' →
      runs_of id (go r.1 es') = runs_of id (after es) ∨
      ∃ j' rest, runs_of id (go r.1 es') = runs_of id (after es) ++ j' :: rest ∧ data j' = d.
  Proof.
    intros Hok Hal Hs Hq. cbv zeta. rewrite update_eq by done. rewrite Hs. cbn [default].
    pose proof (all_at_after prof sched name clock es Hok) as Ha.
    pose proof (key_id _ _ _ _ Ha Hs) as Hid.
    change (id) with id. set (j1 := Job (ctx j) d). assert (jid j1 = id) as Hid1 by done.
    assert (normal j) as Hn.
    { destruct (Ha id) as [p Hp]. apply is_queued_status in Hq.
      assert (p = PQueued j ∨ p = PLimbo j) as [->| ->] by (by eapply at_queued); cbn in Hp; tauto. }
    assert (stored (sw (after es)) (jid j1) = Some j) as Hs1 by by rewrite Hid1.
    assert (re_run new_re_run = false ∨ ¬ done_status (jstatus (ctx j))) as Hnd.
    { right. intros [?|[?|?]]; congruence. }
    destruct (submit_no_run prof sched name clock (after es) j1 j new_re_run Hal Hs1 Hnd)
      as (Hr & (j2 & Hs2 & Hj2) & Hql & Ho & _).
    rewrite Hid1 in Hs2, Ho.
    assert (is_running j = false) as Hnr by (unfold is_running; by rewrite Hq).
    assert (ok_event (after es) (EvEnqueue j1 new_re_run)) as He by (left; done).
    destruct (life_step prof sched name clock _ _ He Ha) as [Ha' _].
    assert (j2 = j1) as ->.
    { rewrite step_enqueue in Hs2 by done. cbn [fst sw] in Hs2. unfold do_run in Hs2.
      rewrite Hs1, Hnr in Hs2. cbn [new_re_run override_data re_run andb negb] in Hs2.
      assert (is_done j = false) as Hdj by (unfold is_done; by rewrite Hq).
      rewrite Hdj, stored_put, bool_decide_true in Hs2 by done. injection Hs2 as <-. by apply normal_data. }
    split; [done|]. split; [done|]. split; [done|]. split; [done|].
    intros es' Hok' HE. destruct (Ha' id) as [p' Hp'].
    assert (p' = PQueued j1 ∨ p' = PLimbo j1) as Hp1.
    { eapply at_queued; try eassumption. by apply is_queued_status. }
    destruct (next_run_with prof sched name clock (λ j, data j = d) (step (after es) (EvEnqueue j1 new_re_run)).1 id p' es') as [E|(j' & rest & E & Hd)];
      try done.
    - by destruct Hp1 as [->| ->].
    - left. rewrite E. unfold runs_of. destruct Ho as (_ & _ & _ & -> & _). done.
    - right. exists j', rest. split; [|done]. rewrite E. unfold runs_of.
      destruct Ho as (_ & _ & _ & -> & _). done.
  Qed.

  (** update_job in any state: what it stores. *)
  Lemma update_stores (s : sys) id j d c :
    alive s = true → stored (sw s) id = Some j → jid j = id →
    match c with Some c' => job_id c' = id | None => True end →
    let r := update s id d c in
    r.2 = RUnit (Ok tt) ∧ only_id id s r.1 ∧
    (jstatus (ctx j) = Running → r.1 = s) ∧
    (jstatus (ctx j) ≠ Running → ∃ j', stored (sw r.1) id = Some j' ∧ data j' = d) ∧
    (¬ done_status (jstatus (ctx j)) → ∀ st, qlist (sw r.1) st = qlist (sw s) st).
  Proof.
    intros Hal Hs Hid Hc. cbv zeta. rewrite update_eq by done. rewrite Hs.
    set (j1 := Job (default (ctx j) c) d).
    assert (jid j1 = id) as Hid1 by by destruct c.
    assert (stored (sw s) (jid j1) = Some j) as Hs1 by by rewrite Hid1.
    destruct (is_done j) eqn:Hd.
    - apply is_done_iff in Hd.
      destruct (submit_done prof sched name clock s j1 j new_re_run Hal Hs1 Hd eq_refl) as (Hr & (j2 & t & Hs2 & Hrb) & _ & Ho).
      rewrite Hid1 in Hs2, Ho. split; [done|]. split; [done|]. split; [|split].
      + intros E. destruct Hd as [?|[?|?]]; congruence.
      + intros _. exists j2. split; [done|]. by destruct Hrb as [-> _].
      + done.
    - assert (¬ done_status (jstatus (ctx j))) as Hnd by (rewrite <-is_done_iff; congruence).
      destruct (submit_no_run prof sched name clock s j1 j new_re_run Hal Hs1 (or_intror Hnd))
        as (Hr & (j2 & Hs2 & Hj2) & Hql & Ho & Hrun).
      rewrite Hid1 in Hs2, Ho. split; [done|]. split; [done|]. split; [|split].
      + intros E. apply Hrun. by apply is_running_status.
      + intros E. exists j2. split; [done|].
        destruct (is_running j) eqn:Er; [by apply is_running_status in Er|]. by destruct Hj2 as [-> _].
      + done.
  Qed.

  (** retry_job in a reachable state. *)
  Lemma retry_pending es id j :
    ok_hist initial es → alive (after es) = true →
    stored (sw (after es)) id = Some j → done_status (jstatus (ctx j)) →
    let s' := after (es ++ [EvRetry id]) in
    times_in s' Queued id = 1%nat ∧ times_in s' Running id = 0%nat ∧
    times_in s' (jstatus (ctx j)) id = 0%nat.
  Proof.
    intros Hok Hal Hs Hd s'. subst s'. rewrite snoc_after.
    pose proof (all_at_after prof sched name clock es Hok) as Ha.
    destruct (life_step prof sched name clock (after es) (EvRetry id) I Ha) as [Ha' _].
    pose proof (key_id _ _ _ _ Ha Hs) as Hid.
    destruct (retry_done prof sched name clock (after es) id j Hal Hs Hid Hd) as (_ & (j' & t & Hs' & Hrb) & Hq & _).
    destruct (Ha' id) as [p' Hp'].
    assert (id ∈ qlist (sw (step (after es) (EvRetry id)).1) Queued) as Hin.
    { rewrite Hq, decide_True by done. set_solver. }
    destruct (at_waiting _ _ _ _ Hp' Hin) as [j2 ->]. cbn in Hp'.
    split; [tauto|]. split; [tauto|].
    assert (jstatus (ctx j) ≠ Queued) as Hne by (destruct Hd as [?|[?|?]]; congruence).
    unfold times_in. rewrite Hq, decide_False, decide_True by done.
    change (cnt id (filter (λ x, x ≠ id) (qlist (sw (after es)) (jstatus (ctx j)))) = 0%nat).
    apply cnt_0. intros H. apply elem_of_list_filter in H. tauto.
  Qed.
End api.
