(** Executions of one id and the clock: a scheme for invariants of the job type and retry state. *)
From Verif Require Import Spec JsonFacts BackendFacts WorldFacts MicroFacts LifeFacts HistFacts SubmitFacts LifeProps ListFacts ApiFacts PickFacts StarveFacts.

Section time.
  Context {M : Type} `{SM : Serde M} {SO : SerdeOk M}.
  Context (prof : profile).
  Context (sched : string → option (time → option time)).
  Context (name : string).
  Context (clock : nat → time).
  Notation h := (mem_h clock).
  Notation qlist := (qlist name).
  Notation stored := (@stored M SM).
  Notation sys := (sys world M).
  Notation step := (sys_step prof sched name h).
  Notation go := (sys_run prof sched name h).
  Notation all_at := (all_at name).
  Notation at_ := (at_ name).
  Notation ok_hist := (ok_hist prof sched name clock).
  Notation after := (after prof sched name clock).
  Notation judge := (judge prof sched clock).
  Notation picked_at := (picked_at clock).

  Definition ty (j : job M) := jtype (ctx j).
  Definition re (j : job M) := jretry (ctx j).

  Lemma picked_at_mono k0 k1 k1' (r : job M) k : (k1 <= k1')%nat → picked_at k0 k1 r k → picked_at k0 k1' r k.
  Proof. unfold Spec.picked_at. intros ? (?&?&?&?). repeat split; try done; lia. Qed.
  Lemma due_ty (j j' : job M) now : jtype (ctx j') = jtype (ctx j) → due j now → due j' now.
  Proof. unfold due. by intros ->. Qed.

  Section scheme.
    Context (id : string) (k0 : nat) (E : event M → Prop).
    (** Waiting to run, running, done, given the executions so far. *)
    Context (Q R : list (job M) → nat → job_type → option retry → Prop).
    Context (D : list (job M) → nat → job_type → option retry → status → Prop).
    (** In any case. *)
    Context (O : list (job M) → Prop).
    Context (HQO : ∀ new k t r, Q new k t r → O new).
    Context (HRO : ∀ new k t r, R new k t r → O new).
    Context (HEs : ∀ e, E e → ¬ submits id e).
    Context (HQ : ∀ new k k' t r, (k <= k')%nat → Q new k t r → Q new k' t r).
    Context (HR : ∀ new k k' t r, (k <= k')%nat → R new k t r → R new k' t r).
    Context (HD : ∀ new k k' t r st, (k <= k')%nat → D new k t r st → D new k' t r st).
    Context (Hrun : ∀ new k r kp, Q new k (ty r) (re r) → picked_at k0 k r kp → jid r = id →
      R (new ++ [r]) k (ty r) (re r)).
    Context (Hjudge : ∀ new k j i u k1 v, E (EvTask i u) → R new k (ty j) (re j) → judge k j u = (k1, v) →
      match v with
      | VRequeue nj => Q new (S k1) (ty (norm_job nj)) (re (norm_job nj))
      | VFailed nj => D new (S k1) (ty (norm_job nj)) (re (norm_job nj)) Failed
      | VFinished nj => D new (S k1) (ty (norm_job nj)) (re (norm_job nj)) Finished
      | VPanic => True
      end).
    Context (Hcancel : E (EvCancel id) → ∀ new k t r, Q new k t r → D new k t r Canceled).
    Context (Hretry : E (EvRetry id) → ∀ new k t r st, D new k t r st → Q new k t r).

    Definition scheme (rs0 : list (job M)) (k : nat) (p : @pstate M) (rs : list (job M)) : Prop :=
      (k0 <= k)%nat ∧ ∃ new, rs = rs0 ++ new ∧ Forall (λ r, jid r = id ∧ ∃ kp, picked_at k0 k r kp) new ∧
      match p with
      | PAbsent => False
      | PQueued j | PLimbo j => jid j = id ∧ Q new k (ty j) (re j)
      | PTask t =>
          jid (t_job t) = id ∧
          match t_phase t with
          | Spawned | Hooked => Q new k (ty (t_job t)) (re (t_job t)) ∧ ∃ kp, picked_at k0 k (t_job t) kp
          | _ => R new k (ty (t_job t)) (re (t_job t))
          end
      | POrphan _ => O new
      | PDone j => jid j = id ∧ D new k (ty j) (re j) (jstatus (ctx j))
      end.

    Lemma forall_mono k k' new :
      (k <= k')%nat → Forall (λ r : job M, jid r = id ∧ ∃ kp, picked_at k0 k r kp) new →
      Forall (λ r, jid r = id ∧ ∃ kp, picked_at k0 k' r kp) new.
    Proof.
      intros Hk Hf. eapply Forall_impl; [|exact Hf]. intros r [H1 [kp Hkp]]. split; [done|]. exists kp. by eapply picked_at_mono.
    Qed.

    Lemma scheme_step rs0 e k p new k' p' rs :
      E e → scheme rs0 k p rs → pstep prof sched clock id e k p new k' p' → scheme rs0 k' p' (rs ++ new).
    Proof.
      intros He (Hk0 & new0 & -> & Hf & Hp) Hst.
      pose proof (HEs e He) as Hns.
      destruct Hst; subst; try (exfalso; apply Hns; done); rewrite ?app_nil_r.
      - (* stay *)
        split; [lia|]. exists new0. split; [done|]. split; [by eapply forall_mono|].
        destruct p; try done; try (destruct Hp as [Hj Hp]; split; [done|]); try (by eapply HQ); try (by eapply HD).
        destruct (t_phase t); try (by eapply HR);
          (destruct Hp as [Hp [kp Hkp]]; split; [by eapply HQ|exists kp; by eapply picked_at_mono]).
      - (* cancel *)
        split; [lia|]. exists new0. split; [done|]. split; [eapply forall_mono; [|done]; lia|].
        cbn. destruct H0 as [->| ->]; cbn in Hp; destruct Hp as [Hj Hp]; (split; [done|]); (eapply HD; [|by apply Hcancel]); lia.
      - (* retry *)
        split; [lia|]. exists new0. split; [done|]. split; [eapply forall_mono; [|done]; lia|].
        cbn in *. destruct Hp as [Hj Hp]. split; [done|]. eapply (HQ _ k); [lia|]. eapply Hretry; [done|exact Hp].
      - (* pick *)
        split; [lia|]. exists new0. split; [done|]. split; [eapply forall_mono; [|done]; lia|].
        cbn in *. destruct Hp as [Hj Hp]. split; [done|]. split; [eapply (HQ _ k); [lia|exact Hp]|].
        exists k. split; [lia|]. split; [lia|]. split; [|done]. apply due_ready in H0. by eapply due_ty; [|exact H0].
      - (* hook *)
        split; [lia|]. exists new0. split; [done|]. split; [done|]. cbn in *. rewrite H0 in Hp. done.
      - (* run *)
        split; [lia|]. exists (new0 ++ [bump (t_job t)]). split; [by rewrite app_assoc|].
        cbn in Hp. rewrite H0 in Hp. destruct Hp as [Hj [Hp [kp Hkp]]].
        assert (picked_at k0 k (bump (t_job t)) kp) as Hkp'.
        { destruct Hkp as (?&?&Hd&?). repeat split; try done. }
        split; [apply Forall_app; split; [done|]; repeat constructor; [done|by exists kp]|].
        cbn. split; [done|]. apply (Hrun new0 k (bump (t_job t)) kp Hp Hkp' Hj).
      - (* return *)
        split; [lia|]. exists new0. split; [done|]. split; [done|]. cbn in *. rewrite H0 in Hp. done.
      - (* requeue *)
        destruct (judge_spec prof sched clock _ _ _ _ _ H1) as [Hk1 Hs].
        cbn in Hp. rewrite H0 in Hp. destruct Hp as [Hj Hp].
        split; [lia|]. exists new0. split; [done|]. split; [eapply forall_mono; [|done]; lia|].
        cbn. pose proof (Hjudge new0 k (t_job t) i u k1 _ He Hp H1) as HH.
        destruct Hs as [Hs _]. split; [rewrite <-Hj; exact Hs|exact HH].
      - destruct (judge_spec prof sched clock _ _ _ _ _ H1) as [Hk1 Hs].
        cbn in Hp. rewrite H0 in Hp. destruct Hp as [Hj Hp].
        split; [lia|]. exists new0. split; [done|]. split; [eapply forall_mono; [|done]; lia|].
        cbn. pose proof (Hjudge new0 k (t_job t) i u k1 _ He Hp H1) as HH.
        destruct Hs as [Hs _]. split; [rewrite <-Hj; exact Hs|exact HH].
      - destruct (judge_spec prof sched clock _ _ _ _ _ H1) as [Hk1 Hs].
        cbn in Hp. rewrite H0 in Hp. destruct Hp as [Hj Hp].
        split; [lia|]. exists new0. split; [done|]. split; [eapply forall_mono; [|done]; lia|].
        cbn. pose proof (Hjudge new0 k (t_job t) i u k1 _ He Hp H1) as HH.
        destruct Hs as [Hs _]. split; [rewrite <-Hj; exact Hs|exact HH].
      - destruct (judge_spec prof sched clock _ _ _ _ _ H1) as [Hk1 _].
        cbn in Hp. rewrite H0 in Hp. destruct Hp as [Hj Hp].
        split; [lia|]. exists new0. split; [done|]. split; [eapply forall_mono; [|done]; lia|]. by eapply HRO.
      - split; [lia|]. exists new0. split; [done|]. split; [done|]. cbn in Hp |- *. destruct Hp as [_ Hp].
        destruct (t_phase t); try (by eapply HRO); by eapply HQO, Hp.
    Qed.
    Lemma scheme_ind (s : sys) es p :
      all_at s → ok_hist s es → Forall E es → at_ s id p →
      scheme (runs_of id s) (reads (sw s)) p (runs_of id s) →
      ∃ p', at_ (go s es) id p' ∧ scheme (runs_of id s) (reads (sw (go s es))) p' (runs_of id (go s es)).
    Proof.
      intros Ha Hok HE Hp Hs.
      apply (life_ind prof sched name clock E (scheme (runs_of id s)) id s es p); try done.
      intros. by eapply scheme_step.
    Qed.

    (** Starting from the submission. *)
    Lemma scheme_submit es1 j ec es2 :
      jid j = id → k0 = reads (sw (after es1)) →
      ok_hist initial (es1 ++ EvEnqueue j ec :: es2) → queues_it (after es1) j ec → Forall E es2 →
      (∀ k, Q [] k (ty (norm_job j)) (re (norm_job j))) →
      let s := after es1 in let s' := after (es1 ++ EvEnqueue j ec :: es2) in
      ∃ p', at_ s' id p' ∧
        scheme (runs_of id s) (reads (sw s')) p' (runs_of id s').
    Proof.
      intros Hid Hk Hok [Ha Hq] HE HQ0 s s'.
      apply ok_hist_app in Hok as [Hok1 Hok2]. destruct Hok2 as [He Hok2].
      change (sys_run prof sched name h initial es1) with s in He, Hok2.
      pose proof (all_at_after prof sched name clock es1 Hok1) as Hall. fold s in Hall.
      destruct (at_submitted prof sched name clock s j ec Hall He Ha Hq) as (t & Hat & Hr). rewrite Hid in Hat, Hr.
      destruct (life_step prof sched name clock s _ He Hall) as [Hall' Hl].
      assert (s' = go (step s (EvEnqueue j ec)).1 es2) as Hs'.
      { unfold s', after. by rewrite go_app, go_cons. }
      rewrite Hs'. rewrite <-Hr.
      apply (scheme_ind _ es2 _ Hall' Hok2 HE Hat).
      destruct (Hall id) as [p Hp]. destruct (Hl id p Hp) as (p2 & new & _ & Hps & _).
      split. { clear -Hps Hk. subst k0. fold s. induction Hps as [|? ? ? ? ? ? ? ? H1 ? IH]; [lia|]. etransitivity; [|exact IH].
        destruct H1; try lia; match goal with H : judge _ _ _ = _ |- _ => apply judge_spec in H as [? _]; lia end. }
      exists []. split; [by rewrite app_nil_r|]. split; [constructor|]. cbn. split; [done|]. apply HQ0.
    Qed.

    (** Starting from a stored job that is not executing. *)
    Lemma scheme_stored es1 es2 j :
      k0 = reads (sw (after es1)) → ok_hist initial (es1 ++ es2) → Forall E es2 →
      stored (sw (after es1)) id = Some j → jstatus (ctx j) ≠ Running →
      (jstatus (ctx j) = Queued → Q [] k0 (ty j) (re j)) →
      (done_status (jstatus (ctx j)) → D [] k0 (ty j) (re j) (jstatus (ctx j))) →
      let s := after es1 in let s' := after (es1 ++ es2) in
      ∃ p', at_ s' id p' ∧ scheme (runs_of id s) (reads (sw s')) p' (runs_of id s').
    Proof.
      intros Hk Hok HE Hj Hnr HQ0 HD0 s s'.
      apply ok_hist_app in Hok as [Hok1 Hok2].
      pose proof (all_at_after prof sched name clock es1 Hok1) as Hall.
      destruct (Hall id) as [p Hp].
      assert (s' = go s es2) as Hs'. { unfold s', after. by rewrite go_app. }
      rewrite Hs'. apply (scheme_ind s es2 p Hall Hok2 HE Hp).
      split; [subst k0; done|]. exists []. split; [by rewrite app_nil_r|]. split; [constructor|].
      fold s in Hk. rewrite <-Hk.
      destruct p; cbn in Hp |- *.
      - destruct Hp as [Hp _]. congruence.
      - destruct Hp as ((E1&_)&H1&_&H2). assert (j0 = j) as -> by congruence. split; [done|]. by apply HQ0.
      - destruct Hp as ((E1&_)&H1&_&H2). assert (j0 = j) as -> by congruence. split; [done|]. by apply HQ0.
      - destruct Hp as ((E1&_)&H1&(_&H2&_)). assert (t_orig t = j) as E2 by congruence. rewrite E2 in H2. done.
      - destruct Hp as ((E1&_)&H1&_&H2). assert (j0 = j) as -> by congruence. done.
      - destruct Hp as ((E1&_)&H1&_&H2). assert (j0 = j) as -> by congruence. split; [done|]. apply HD0.
        unfold is_done in H2. unfold done_status.
        destruct (jstatus (ctx j)); try (by left); try (by right; left); try (by right; right); done.
    Qed.

    (** Starting with the end of an execution. *)
    Lemma scheme_task es1 es2 i u t k1 v :
      k0 = reads (sw (after es1)) → ok_hist initial (es1 ++ EvTask i u :: es2) → Forall E es2 →
      alive (after es1) = true → tasks (after es1) !! i = Some t → t_phase t = AfterHook → tid t = id →
      judge k0 (t_job t) u = (k1, v) →
      match v with
      | VRequeue nj => Q [] (S k1) (ty (norm_job nj)) (re (norm_job nj))
      | VFailed nj => D [] (S k1) (ty (norm_job nj)) (re (norm_job nj)) Failed
      | VFinished nj => D [] (S k1) (ty (norm_job nj)) (re (norm_job nj)) Finished
      | VPanic => O []
      end →
      let s := after es1 in let s' := after (es1 ++ EvTask i u :: es2) in
      ∃ p', at_ s' id p' ∧ scheme (runs_of id s) (reads (sw s')) p' (runs_of id s').
    Proof.
      intros Hk Hok HE Hal Ht Hph Hid Hj Hv s s'.
      apply ok_hist_app in Hok as [Hok1 [He Hok2]].
      change (sys_run prof sched name h initial es1) with s in He, Hok2.
      pose proof (all_at_after prof sched name clock es1 Hok1) as Hall. fold s in Hall.
      destruct (life_step prof sched name clock s _ He Hall) as [Hall' Hl].
      assert (s' = go (step s (EvTask i u)).1 es2) as Hs'.
      { unfold s', after. by rewrite go_app, go_cons. }
      rewrite Hs'.
      destruct (Hall id) as [p Hp].
      assert (t ∈ tasks_of id s) as Hin.
      { unfold tasks_of. apply elem_of_list_filter. split; [done|]. by eapply elem_of_list_lookup_2. }
      assert (p = PTask t) as ->.
      { destruct p; cbn in Hp; try (destruct Hp as ((_&_&_&HT)&_); rewrite HT in Hin; by apply elem_of_nil in Hin).
        - destruct Hp as (_&_&_&HT). rewrite HT in Hin. by apply elem_of_nil in Hin.
        - destruct Hp as ((_&_&_&HT)&_). rewrite HT in Hin. apply elem_of_list_singleton in Hin. by subst. }
      destruct (Hl id _ Hp) as (p' & new & Hp' & Hps & Hr).
      cbn in Hp. destruct Hp as ((Hst&Hcq&Hcr&HT)&_&Htn&Htr&Htp). rewrite Hph in Htp. destruct Htp as [d Htp].
      assert (jid (t_job t) = id) as Hjid by (rewrite Htp; exact Hid).
      assert (jstatus (ctx (t_job t)) = Running) as Hjr by (rewrite Htp; exact Htr).
      assert (is_cancelled (t_job t) = false) as Hnc.
      { unfold is_cancelled. rewrite Hjr. done. }
      assert (reads (sw s) <= reads (sw (step s (EvTask i u)).1))%nat as Hkk.
      { clear -Hps. induction Hps as [|? ? ? ? ? ? ? ? H1 ? IH]; [lia|]. etransitivity; [|exact IH].
        destruct H1; try lia; match goal with H : judge _ _ _ = _ |- _ => apply judge_spec in H as [? _]; lia end. }
      pose proof (step_task prof sched name clock s i t u Hal Ht Hnc) as Hstep. rewrite Hph in Hstep.
      cbv zeta in Hstep. fold s in Hk. rewrite <-Hk in Hstep. rewrite Hj in Hstep. cbn [snd] in Hstep.
      assert (do_tail prof sched name clock (sw s) (t_job t) u = do_verdict name clock (w_reads (sw s) k1) v) as Edo.
      { unfold do_tail. rewrite <-Hk, Hj. done. }
      rewrite Edo in Hstep.
      destruct (judge_spec prof sched clock _ _ _ _ _ Hj) as [Hk1 Hsame].
      assert (runs (step s (EvTask i u)).1 = runs s) as Hruns. { rewrite Hstep. by destruct v. }
      assert (runs_of id (step s (EvTask i u)).1 = runs_of id s) as Hro. { unfold runs_of. by rewrite Hruns. }
      rewrite <-Hro.
      apply (scheme_ind _ es2 p' Hall' Hok2 HE Hp').
      split; [lia|]. exists []. split; [by rewrite app_nil_r|]. split; [constructor|].
      destruct v as [nj|nj|nj|].
      - (* requeue *)
        destruct Hsame as [Hsi Hss].
        assert (stored (sw (step s (EvTask i u)).1) id = Some (norm_job (enq nj (ms_of (clock k1))))) as Hst'.
        { rewrite Hstep. cbn [sw do_verdict]. unfold do_re_enqueue.
          rewrite stored_push, stored_save, bool_decide_true; [done|]. rewrite <-Hjid. symmetry. exact Hsi. }
        assert (reads (sw (step s (EvTask i u)).1) = S k1) as Hrd. { by rewrite Hstep. }
        rewrite Hrd.
        destruct p'; cbn in Hp' |- *.
        + destruct Hp' as [Hp' _]. congruence.
        + destruct Hp' as ((E1&_)&H1&_&H2). assert (j = norm_job (enq nj (ms_of (clock k1)))) as -> by congruence. by split.
        + destruct Hp' as ((E1&_)&H1&_&H2). assert (j = norm_job (enq nj (ms_of (clock k1)))) as -> by congruence. by split.
        + destruct Hp' as ((E1&_)&H1&(_&H2&_)). assert (t_orig t0 = norm_job (enq nj (ms_of (clock k1)))) as E2 by congruence.
          rewrite E2 in H2. done.
        + destruct Hp' as ((E1&_)&H1&_&H2). rewrite Hst' in E1. injection E1 as <-. done.
        + destruct Hp' as ((E1&_)&H1&_&H2). assert (j = norm_job (enq nj (ms_of (clock k1)))) as -> by congruence. done.
      - destruct Hsame as [Hsi Hss].
        assert (stored (sw (step s (EvTask i u)).1) id = Some (norm_job (fai nj (ms_of (clock k1))))) as Hst'.
        { rewrite Hstep. cbn [sw do_verdict]. unfold do_fail.
          rewrite stored_push, stored_rem, stored_save, bool_decide_true; [done|]. rewrite <-Hjid. symmetry. exact Hsi. }
        assert (reads (sw (step s (EvTask i u)).1) = S k1) as Hrd. { by rewrite Hstep. }
        rewrite Hrd.
        destruct p'; cbn in Hp' |- *.
        + destruct Hp' as [Hp' _]. congruence.
        + destruct Hp' as ((E1&_)&H1&_&H2). assert (j = norm_job (fai nj (ms_of (clock k1)))) as -> by congruence. done.
        + destruct Hp' as ((E1&_)&H1&_&H2). assert (j = norm_job (fai nj (ms_of (clock k1)))) as -> by congruence. done.
        + destruct Hp' as ((E1&_)&H1&(_&H2&_)). assert (t_orig t0 = norm_job (fai nj (ms_of (clock k1)))) as E2 by congruence.
          rewrite E2 in H2. done.
        + destruct Hp' as ((E1&_)&H1&_&H2). rewrite Hst' in E1. injection E1 as <-. done.
        + destruct Hp' as ((E1&_)&H1&_&H2). assert (j = norm_job (fai nj (ms_of (clock k1)))) as -> by congruence. by split.
      - destruct Hsame as [Hsi Hss].
        assert (stored (sw (step s (EvTask i u)).1) id = Some (norm_job (fin nj (ms_of (clock k1))))) as Hst'.
        { rewrite Hstep. cbn [sw do_verdict]. unfold do_finish.
          rewrite stored_push, stored_save, bool_decide_true; [done|]. rewrite <-Hjid. symmetry. exact Hsi. }
        assert (reads (sw (step s (EvTask i u)).1) = S k1) as Hrd. { by rewrite Hstep. }
        rewrite Hrd.
        destruct p'; cbn in Hp' |- *.
        + destruct Hp' as [Hp' _]. congruence.
        + destruct Hp' as ((E1&_)&H1&_&H2). assert (j = norm_job (fin nj (ms_of (clock k1)))) as -> by congruence. done.
        + destruct Hp' as ((E1&_)&H1&_&H2). assert (j = norm_job (fin nj (ms_of (clock k1)))) as -> by congruence. done.
        + destruct Hp' as ((E1&_)&H1&(_&H2&_)). assert (t_orig t0 = norm_job (fin nj (ms_of (clock k1)))) as E2 by congruence.
          rewrite E2 in H2. done.
        + destruct Hp' as ((E1&_)&H1&_&H2). rewrite Hst' in E1. injection E1 as <-. done.
        + destruct Hp' as ((E1&_)&H1&_&H2). assert (j = norm_job (fin nj (ms_of (clock k1)))) as -> by congruence. by split.
      - (* panic *)
        assert (tasks (step s (EvTask i u)).1 = []) as HT' by (by rewrite Hstep).
        assert (stored (sw (step s (EvTask i u)).1) id = Some (t_orig t)) as Hst'.
        { rewrite Hstep. exact Hst. }
        destruct p'; cbn in Hp' |- *.
        + destruct Hp' as [Hp' _]. congruence.
        + destruct Hp' as ((E1&_)&H1&_&H2). assert (j = t_orig t) as -> by congruence. congruence.
        + destruct Hp' as ((E1&_)&H1&_&H2). assert (j = t_orig t) as -> by congruence. congruence.
        + destruct Hp' as ((_&_&_&E1)&_). unfold tasks_of in E1. by rewrite HT' in E1.
        + exact Hv.
        + destruct Hp' as ((E1&_)&H1&_&H2). assert (j = t_orig t) as -> by congruence.
          unfold is_done in H2. by rewrite Htr in H2.
    Qed.

    Lemma scheme_new (s s' : sys) p k :
      scheme (runs_of id s) k p (runs_of id s') →
      runs_of id s' = runs_of id s ++ new_runs id s s' ∧
      Forall (λ r, jid r = id ∧ ∃ kp, picked_at k0 k r kp) (new_runs id s s') ∧
      let new := new_runs id s s' in
      match p with
      | PAbsent => False
      | PQueued j | PLimbo j => jid j = id ∧ Q new k (ty j) (re j)
      | PTask t =>
          jid (t_job t) = id ∧
          match t_phase t with
          | Spawned | Hooked => Q new k (ty (t_job t)) (re (t_job t)) ∧ ∃ kp, picked_at k0 k (t_job t) kp
          | _ => R new k (ty (t_job t)) (re (t_job t))
          end
      | POrphan _ => O new
      | PDone j => jid j = id ∧ D new k (ty j) (re j) (jstatus (ctx j))
      end.
    Proof.
      intros (_ & new & E1 & Hf & Hp).
      assert (new_runs id s s' = new) as ->. { unfold new_runs. by rewrite E1, drop_app. }
      done.
    Qed.
  End scheme.
End time.
