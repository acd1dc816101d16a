(** Start times, automatic and manual retries. *)
From Verif Require Import Spec JsonFacts BackendFacts WorldFacts MicroFacts LifeFacts HistFacts SubmitFacts LifeProps ListFacts ApiFacts PickFacts StarveFacts TimeFacts.

Lemma cut_us_trunc' t : cut_us t (trunc_us t).
Proof.
  split; [|apply trunc_us_bounds]. unfold trunc_us, of_us. by exists (to_us t).
Qed.

Section retry.
  Context {M : Type} `{SM : Serde M} {SO : SerdeOk M}.
  Context (prof : profile).
  Context (sched : string → option (time → option time)).
  Context (name : string).
  Context (clock : nat → time).
  Notation h := (mem_h clock).
  Notation qlist := (qlist name).
  Notation stored := (@stored M SM).
  Notation sys := (sys world M).
  Notation step := (sys_step prof sched name h).
  Notation go := (sys_run prof sched name h).
  Notation all_at := (all_at name).
  Notation at_ := (at_ name).
  Notation ok_hist := (ok_hist prof sched name clock).
  Notation after := (after prof sched name clock).
  Notation judge := (judge prof sched clock).
  Notation picked_at := (picked_at clock).

  Definition noncron (t : job_type) : Prop := match t with Cron _ _ _ _ => False | _ => True end.
  Lemma noncron_norm t : noncron t → noncron (norm_type t).
  Proof. by destruct t. Qed.

  Lemma finish_noncron k (j : job M) b :
    noncron (ty j) → finish_of prof sched clock k j b = (S k, if b then VFailed j else VFinished j).
  Proof. unfold ty, finish_of, tick_of. by destruct (jtype (ctx j)). Qed.

  (** *** C11 *)
  Section c11.
    Context (j0 : job M) (t0 : time).
    Let T := ScheduledAt (trunc_us t0).
    Let nore := jretry (ctx j0) = None.
    Definition o11 (new : list (job M)) : Prop :=
      (∀ r, head new = Some r → jtype (ctx r) = T) ∧ (nore → Forall (λ r : job M, jtype (ctx r) = T) new).
    Definition q11 (new : list (job M)) (k : nat) (t : job_type) (r : option retry) : Prop :=
      (new = [] → t = T) ∧ (nore → t = T ∧ r = None) ∧ o11 new.
    Definition r11 (new : list (job M)) (k : nat) (t : job_type) (r : option retry) : Prop :=
      new ≠ [] ∧ (nore → t = T ∧ r = None) ∧ o11 new.

    Lemma start_time es1 ec es2 :
      jtype (ctx j0) = ScheduledAt t0 →
      ok_hist initial (es1 ++ EvEnqueue j0 ec :: es2) → queues_it (after es1) j0 ec →
      Forall (λ e, ¬ submits (jid j0) e) es2 →
      let s := after es1 in let s' := after (es1 ++ EvEnqueue j0 ec :: es2) in
      ∀ i r, new_runs (jid j0) s s' !! i = Some r → i = 0%nat ∨ jretry (ctx j0) = None →
        ∃ k t, picked_at (reads (sw s)) (reads (sw s')) r k ∧ cut_us t0 t ∧ t < clock k.
    Proof.
      intros Hty Hok Hq HE s s' i r Hr Hi.
      destruct (scheme_submit prof sched name clock (jid j0) (reads (sw s)) (λ e, ¬ submits (jid j0) e)
        q11 r11 (λ new k t r st, q11 new k t r) o11) with (es1 := es1) (j := j0) (ec := ec) (es2 := es2) as (p & _ & Hs); try done.
      - by intros ? ? ? ? (?&?&?).
      - by intros ? ? ? ? (?&?&?).
      - intros new k r1 kp (H1&H2&H3&H4) Hp Hid. split; [by destruct new|]. split; [done|].
        split.
        + intros r2. destruct new as [|r3 new]; cbn; [|by apply H3]. intros [= <-]. by apply H1.
        + intros Hn. apply Forall_app. split; [by apply H4|]. constructor; [by apply H2|constructor].
      - intros new k j i1 u k1 v _ (H1&H2&H3&H4) Hj.
        assert (∀ nj, (nore → nj = j) → q11 new (S k1) (ty (norm_job nj)) (re (norm_job nj))) as HH.
        { intros nj Hnj. split; [done|]. split; [|done]. intros Hn. destruct (H2 Hn) as [E1 E2].
          rewrite Hnj by done. unfold ty, re in *. cbn. rewrite E1, E2. cbn. unfold T. by rewrite trunc_us_idem. }
        assert (nore → v = VFailed j ∨ v = VFinished j) as Hv.
        { intros Hn. destruct (H2 Hn) as [E1 E2]. unfold WorldFacts.judge in Hj. unfold re in E2. rewrite E2 in Hj.
          rewrite finish_noncron in Hj by by rewrite E1. injection Hj as <- <-. destruct (ur_failed u); auto. }
        destruct v; try done; apply HH; intros Hn; destruct (Hv Hn) as [E|E]; try discriminate; by injection E.
      - intros k. split; [|split].
        + intros _. unfold ty. cbn. by rewrite Hty.
        + intros Hn. unfold ty, re. cbn. rewrite Hty. unfold nore in Hn. by rewrite Hn.
        + split; [done|]. constructor.
      - apply scheme_new in Hs as (_ & Hf & Hp).
        assert (o11 (new_runs (jid j0) s s')) as [Ho1 Ho2].
        { destruct p; try done; cbn in Hp; try (by apply Hp). destruct Hp as [_ Hp]. destruct (t_phase t); try (by apply Hp). }
        assert (jtype (ctx r) = T) as Et.
        { destruct Hi as [->|Hn].
          - apply Ho1. by destruct (new_runs (jid j0) s s').
          - eapply Forall_lookup_1 in Hr; [|by apply Ho2]. done. }
        eapply Forall_lookup_1 in Hr; [|exact Hf]. destruct Hr as [_ [kp Hkp]].
        exists kp, (trunc_us t0). split; [exact Hkp|]. split; [apply cut_us_trunc'|].
        destruct Hkp as (_&_&Hd&_). unfold due in Hd. rewrite Et in Hd. exact Hd.
    Qed.
  End c11.

  (** *** C26, C25 *)
  Section c26.
    Context (id : string) (allf : Prop) (c0 n : Z).
    Context (Hc0 : i32_min <= c0 <= i32_max) (Hn : n <= i32_max).
    Let N := Z.max c0 n.
    Let len (l : list (job M)) : Z := Z.of_nat (length l).
    Definition q26 (new : list (job M)) (k : nat) (t : job_type) (r : option retry) : Prop :=
      noncron t ∧ (∃ st, r = Some (Retry (c0 + len new) (Some n) st)) ∧ c0 + len new <= N.
    Definition r26 (new : list (job M)) (k : nat) (t : job_type) (r : option retry) : Prop :=
      noncron t ∧ (∃ st, r = Some (Retry (c0 + len new - 1) (Some n) st)) ∧ 1 <= len new ∧ c0 + len new - 1 <= N.
    Definition o26 (new : list (job M)) : Prop := c0 + len new <= N + 1.
    Definition d26 (new : list (job M)) (k : nat) (t : job_type) (r : option retry) (st : status) : Prop :=
      o26 new ∧ (allf → c0 + len new = N + 1 ∧ st = Failed).
    Definition e26 (e : event M) : Prop :=
      ¬ revives id e ∧ default_retry e ∧ (allf → all_fail e ∧ e ≠ EvCancel id).

    Lemma s26_revive e : e26 e → ¬ submits id e.
    Proof. intros (H&_) Hs. apply H. by destruct e. Qed.
    Lemma s26_run new k (r : job M) kp k0 :
      q26 new k (ty r) (re r) → picked_at k0 k r kp → jid r = id → r26 (new ++ [r]) k (ty r) (re r).
    Proof.
      intros (H1&[st H2]&H3) _ _. split; [done|]. unfold len in *. rewrite app_length. cbn.
      split; [exists st; rewrite H2; repeat f_equal; lia|]. lia.
    Qed.
    Lemma s26_judge new k (j : job M) i u k1 v :
      e26 (EvTask i u) → r26 new k (ty j) (re j) → judge k j u = (k1, v) →
      match v with
      | VRequeue nj => q26 new (S k1) (ty (norm_job nj)) (re (norm_job nj))
      | VFailed nj => d26 new (S k1) (ty (norm_job nj)) (re (norm_job nj)) Failed
      | VFinished nj => d26 new (S k1) (ty (norm_job nj)) (re (norm_job nj)) Finished
      | VPanic => True
      end.
    Proof.
      intros (_&[b Hb]&Hf) (H1&[st H2]&H3&H4) Hj. unfold WorldFacts.judge in Hj. unfold re in H2. rewrite H2 in Hj.
      rewrite Hb in Hj. cbn [retry_of] in Hj.
      assert (∀ k2, finish_of prof sched clock k2 (with_retry j (Retry (c0 + len new - 1) (Some n) st)) (ur_failed u) =
        (S k2, if ur_failed u then VFailed (with_retry j (Retry (c0 + len new - 1) (Some n) st))
               else VFinished (with_retry j (Retry (c0 + len new - 1) (Some n) st)))) as Hfin.
      { intros k2. by apply finish_noncron. }
      destruct (b && should_retry _) eqn:Eb.
      - apply andb_true_iff in Eb as [-> Es]. unfold should_retry in Es. cbn in Es. apply Z.ltb_lt in Es.
        unfold retry_retry_at in Hj. cbn [retried_times max_retries strat] in Hj.
        assert (i32_norm prof (c0 + len new - 1 + 1) = Some (c0 + len new)) as Ei.
        { unfold i32_norm, in_i32. rewrite !(proj2 (Z.leb_le _ _)) by lia. cbn. f_equal. lia. }
        rewrite Ei in Hj. cbn [mbind option_bind] in Hj.
        assert (∀ t st', q26 new (S k1) (ty (norm_job (with_type (with_retry j (Retry (c0 + len new) (Some n) st')) (ScheduledAt t))))
          (re (norm_job (with_type (with_retry j (Retry (c0 + len new) (Some n) st')) (ScheduledAt t))))) as HH.
        { intros t st'. split; [done|]. split; [by eexists|]. unfold N. lia. }
        destruct st as [d|d].
        + destruct (dt_add (clock k) d) as [t|]; cbn in Hj; injection Hj as <- <-; [apply HH|done].
        + destruct (pow2_i32 prof (c0 + len new)) as [pw|]; cbn in Hj; [|by injection Hj as <- <-].
          destruct (dt_add (clock k) (d * pw)) as [t|]; cbn in Hj; injection Hj as <- <-; [apply HH|done].
      - rewrite Hfin in Hj. injection Hj as <- <-.
        assert (o26 new) as Ho by (unfold o26; lia).
        assert (allf → c0 + len new = N + 1) as Hal.
        { intros Ha. destruct (Hf Ha) as [[Hf1 _] _]. rewrite Hb in Hf1. injection Hf1 as ->.
          cbn in Eb. unfold should_retry in Eb. cbn in Eb. apply Z.ltb_ge in Eb. unfold N in *. lia. }
        destruct (ur_failed u) eqn:Ef.
        + split; [done|]. auto.
        + split; [done|]. intros Ha. destruct (Hf Ha) as [[_ Hf1] _]. congruence.
    Qed.

    Lemma retry_bound_end es1 es2 k0 p (s s' : sys) :
      s = after es1 → s' = after es2 →
      at_ s' id p → scheme clock id k0 q26 r26 d26 o26 (runs_of id s) (reads (sw s')) p (runs_of id s') →
      let m := Z.of_nat (length (new_runs id s s')) in
      c0 + m <= N + 1 ∧
      ∃ j', stored (sw s') id = Some j' ∧
        (allf → jstatus (ctx j') = Queued ∨ jstatus (ctx j') = Running ∨ (jstatus (ctx j') = Failed ∧ c0 + m = N + 1)).
    Proof.
      intros _ _ Hp Hs. cbv zeta. pose proof Hs as Hs0. apply scheme_new in Hs as (_ & _ & Hq). cbv zeta in Hq.
      destruct p; try done.
      - destruct Hq as [_ (H1&[st H2]&H3)]. unfold len in *. split; [lia|]. destruct Hp as ((E1&_)&_&_&E2).
        exists j. split; [exact E1|]. auto.
      - destruct Hq as [_ (H1&[st H2]&H3)]. unfold len in *. split; [lia|]. destruct Hp as ((E1&_)&_&_&E2).
        exists j. split; [exact E1|]. auto.
      - destruct Hp as ((E1&_)&_&(_&E2&_)). destruct Hq as [_ Hq].
        assert (c0 + len (new_runs id s s') <= N + 1) as HH.
        { destruct (t_phase t).
          1,2: destruct Hq as [(_&_&H3) _]; lia. 1,2: destruct Hq as (_&_&H3); lia. }
        split; [exact HH|]. exists (t_orig t). split; [exact E1|]. auto.
      - cbn in Hq. split; [exact Hq|]. destruct Hp as ((E1&_)&_&_&E2). exists j. split; [exact E1|]. auto.
      - destruct Hq as [_ [H1 H2]]. split; [exact H1|]. destruct Hp as ((E1&_)&_&_&E2). exists j. split; [exact E1|].
        intros Ha. destruct (H2 Ha) as [H3 H4]. auto.
    Qed.
  End c26.

  Lemma retry_bound (allf : Prop) es1 j ec es2 n st :
    jretry (ctx j) = Some (Retry 0 (Some n) st) → 0 <= n <= i32_max → ¬ is_cron j →
    ok_hist initial (es1 ++ EvEnqueue j ec :: es2) → queues_it (after es1) j ec →
    Forall (λ e, ¬ revives (jid j) e ∧ default_retry e ∧ (allf → all_fail e ∧ e ≠ EvCancel (jid j))) es2 →
    let s := after es1 in let s' := after (es1 ++ EvEnqueue j ec :: es2) in
    let m := Z.of_nat (length (new_runs (jid j) s s')) in
    m <= n + 1 ∧
    ∃ j', stored (sw s') (jid j) = Some j' ∧
      (allf → jstatus (ctx j') = Queued ∨ jstatus (ctx j') = Running ∨ (jstatus (ctx j') = Failed ∧ m = n + 1)).
  Proof.
    intros Hre Hn Hnc Hok Hq HE s s' m.
    assert (i32_min <= 0 <= i32_max) as H0 by (unfold i32_min, i32_max; lia).
    destruct (scheme_submit prof sched name clock (jid j) (reads (sw s)) (e26 (jid j) allf)
        (q26 0 n) (r26 0 n) (d26 allf 0 n) (o26 0 n)) with (es1 := es1) (j := j) (ec := ec) (es2 := es2) as (p & Hp & Hs); try done.
    - intros new k t r (_&_&?). unfold o26. lia.
    - intros new k t r (_&_&?). unfold o26. lia.
    - intros. by eapply s26_revive.
    - intros. by eapply s26_run.
    - intros. eapply s26_judge; try done; lia.
    - intros (_&_&H) new k t r (_&_&H1). split; [unfold o26; lia|]. intros Ha. by destruct (H Ha) as [_ []].
    - intros (H&_). by destruct H.
    - intros k. split; [|split].
      + unfold ty. cbn. unfold is_cron in Hnc. by destruct (jtype (ctx j)).
      + unfold re. cbn. rewrite Hre. by eexists.
      + cbn. lia.
    - eapply (retry_bound_end (jid j) allf 0 n es1 _ _ p) in Hs; [|done|done|exact Hp].
      rewrite Z.max_r in Hs by lia. rewrite !Z.add_0_l in Hs. exact Hs.
  Qed.

  Lemma retry_bound_count (allf : Prop) es1 j ec es2 n st :
    jretry (ctx j) = Some (Retry 0 (Some n) st) → 0 <= n <= i32_max → ¬ is_cron j →
    run_count (ctx j) = 0%nat →
    ok_hist initial (es1 ++ EvEnqueue j ec :: es2) → queues_it (after es1) j ec →
    Forall (λ e, ¬ revives (jid j) e ∧ default_retry e ∧ (allf → all_fail e ∧ e ≠ EvCancel (jid j))) es2 →
    let s := after es1 in let s' := after (es1 ++ EvEnqueue j ec :: es2) in
    let m := Z.of_nat (length (new_runs (jid j) s s')) in
    m <= n + 1 ∧
    ∃ j', stored (sw s') (jid j) = Some j' ∧
      (allf → jstatus (ctx j') = Queued ∨ jstatus (ctx j') = Running ∨
              (jstatus (ctx j') = Failed ∧ m = n + 1 ∧ Z.of_nat (run_count (ctx j')) = n + 1)).
  Proof.
    intros Hre Hn Hnc H0 Hok Hq HE s s' m.
    destruct (retry_bound allf es1 j ec es2 n st Hre Hn Hnc Hok Hq HE) as (H1 & j' & H2 & H3).
    split; [exact H1|]. exists j'. split; [exact H2|]. intros Ha. destruct (H3 Ha) as [H4|[H4|[H4 H5]]]; auto.
    right; right. split; [done|]. split; [exact H5|].
    destruct (run_count_runs prof sched name clock es1 j ec es2 j' Hok) as [H6 _]; try done; try apply Hq.
    { eapply Forall_impl; [|exact HE]. cbn. intros e (He&_) Hs. apply He. by destruct e. }
    rewrite H6 by (by rewrite H4). unfold new_runs in H5. rewrite drop_length in H5. exact H5.
  Qed.

  (** A manual retry: the automatic retries left are those not used before. *)
  Lemma manual_retry_bound (allf : Prop) es1 id j es2 c n st :
    stored (sw (after es1)) id = Some j → done_status (jstatus (ctx j)) → alive (after es1) = true →
    jretry (ctx j) = Some (Retry c (Some n) st) → i32_min <= c <= i32_max → n <= i32_max → ¬ is_cron j →
    ok_hist initial (es1 ++ EvRetry id :: es2) →
    Forall (λ e, ¬ revives id e ∧ default_retry e ∧ (allf → all_fail e ∧ e ≠ EvCancel id)) es2 →
    let s := after es1 in let s' := after (es1 ++ EvRetry id :: es2) in
    let m := Z.of_nat (length (new_runs id s s')) in
    m <= Z.max 0 (n - c) + 1 ∧
    ∃ j', stored (sw s') id = Some j' ∧
      (allf → jstatus (ctx j') = Queued ∨ jstatus (ctx j') = Running ∨
              (jstatus (ctx j') = Failed ∧ m = Z.max 0 (n - c) + 1)).
  Proof.
    intros Hj Hd Hal Hre Hc Hn Hnc Hok HE s s' m.
    assert (es1 ++ EvRetry id :: es2 = (es1 ++ [EvRetry id]) ++ es2) as Eapp by by rewrite <-app_assoc.
    rewrite Eapp in Hok.
    assert (after (es1 ++ [EvRetry id]) = (step s (EvRetry id)).1) as E1. { unfold after. by rewrite go_app. }
    destruct (all_at_after prof sched name clock es1) with (id := id) as [p0 Hp0].
    { apply ok_hist_app in Hok as [Hok _]. by apply ok_hist_app in Hok as [? _]. }
    assert (jid j = id ∧ normal j ∧ is_done j = true) as (Hid & Hno & His).
    { destruct p0; cbn in Hp0.
      - destruct Hp0 as [Hp0 _]. congruence.
      - destruct Hp0 as ((E2&_)&_&_&H2). assert (j0 = j) as -> by congruence. rewrite H2 in Hd. by destruct Hd as [|[|]].
      - destruct Hp0 as ((E2&_)&_&_&H2). assert (j0 = j) as -> by congruence. rewrite H2 in Hd. by destruct Hd as [|[|]].
      - destruct Hp0 as ((E2&_)&_&(_&H2&_)). assert (t_orig t = j) as E3 by congruence. rewrite E3 in H2. rewrite H2 in Hd. by destruct Hd as [|[|]].
      - destruct Hp0 as ((E2&_)&_&_&H2). assert (j0 = j) as -> by congruence. rewrite H2 in Hd. by destruct Hd as [|[|]].
      - destruct Hp0 as ((E2&_)&H1&Hno&H2). assert (j0 = j) as -> by congruence. done. }
    assert (stored (sw (after (es1 ++ [EvRetry id]))) id = Some (enq j (ms_of (clock (reads (sw s))))) ∧
            runs (after (es1 ++ [EvRetry id])) = runs s) as [Hst Hru].
    { rewrite E1, step_retry by exact Hal. cbn [fst sw runs]. split; [|done].
      unfold do_retry. change (Spec.stored (sw s) id) with (stored (sw (after es1)) id). rewrite Hj, His.
      unfold do_re_enqueue. rewrite stored_push, stored_save, bool_decide_true by (symmetry; exact Hid).
      f_equal. by apply (normal_enq j (ms_of (clock (reads (sw s))))) in Hno. }
    assert (runs_of id (after (es1 ++ [EvRetry id])) = runs_of id s) as Hro. { unfold runs_of. by rewrite Hru. }
    assert (new_runs id s s' = new_runs id (after (es1 ++ [EvRetry id])) s') as Hnr. { unfold new_runs. by rewrite Hro. }
    destruct (scheme_stored prof sched name clock id (reads (sw (after (es1 ++ [EvRetry id])))) (e26 id allf)
        (q26 c n) (r26 c n) (d26 allf c n) (o26 c n)) with (es1 := es1 ++ [EvRetry id]) (es2 := es2)
        (j := enq j (ms_of (clock (reads (sw s))))) as (p & Hp & Hs); try done.
    - intros new k t r (_&_&?). unfold o26. lia.
    - intros new k t r (_&_&?). unfold o26. lia.
    - intros. by eapply s26_revive.
    - intros. by eapply s26_run.
    - intros. eapply s26_judge; try done; lia.
    - intros (_&_&H) new k t r (_&_&H1). split; [unfold o26; lia|]. intros Ha. by destruct (H Ha) as [_ []].
    - intros (H&_). by destruct H.
    - intros _. split; [|split].
      + unfold ty. cbn. unfold is_cron in Hnc. by destruct (jtype (ctx j)).
      + unfold re. cbn. rewrite Hre, Z.add_0_r. by eexists.
      + cbn. lia.
    - cbn. by intros [|[|]].
    - eapply (retry_bound_end id allf c n (es1 ++ [EvRetry id]) _ _ p) in Hs; [|done|done|exact Hp].
      rewrite <-Eapp in Hs. change (after (es1 ++ EvRetry id :: es2)) with s' in Hs. rewrite <-Hnr in Hs. fold m in Hs.
      destruct Hs as (H1 & j' & H2 & H3). split; [lia|]. exists j'. split; [exact H2|]. intros Ha.
      destruct (H3 Ha) as [|[|[]]]; auto. right; right. split; [done|]. lia.
  Qed.
End retry.
