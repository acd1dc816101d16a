(** The end of an execution that is to be followed by another one, for every combination of failing
    backend calls. *)
From Verif Require Import Spec JsonFacts BackendFacts WorldFacts MicroFacts LifeFacts HistFacts
  SubmitFacts PickFacts StarveFacts ApiFacts FaultFacts CrashFacts FaultCases SpecStray StrayFacts.

Section cases.
  Context {M : Type} `{SM : Serde M} {SO : SerdeOk M}.
  Context (prof : profile).
  Context (sched : string → option (time → option time)).
  Context (name : string).
  Context (clock : nat → time).
  Notation qname := (format_queue_name name).
  Notation qlist := (qlist name).
  Notation stored := (@stored M SM).
  Notation fsys := (Sys.sys fworld M).
  Notation fh faults := (faulty_h clock faults).
  Notation fstep faults := (sys_step prof sched name (faulty_h clock faults)).

  Lemma run_f_re_enqueue faults w n (j : job M) :
    jstatus (ctx j) = Running →
    let w1 := wr (faults n) w (w_rem name w Running (jid j)) in
    let w2 := wr (faults (S n)) (w_tick w1) (w_put (w_tick w1) (enq j (now_ms clock w))) in
    let w3 := w_send w2 (ChangeStatus (jid j) Queued) in
    run (fh faults) (re_enqueue name j) (FWorld w n) =
    if ok_of (faults n)
    then if ok_of (faults (S n))
         then (FWorld (wr (faults (S (S n))) w3 (w_push name w3 Queued (jid j))) (S (S (S n))), Done (Ok tt))
         else (FWorld w2 (S (S n)), Done (Err ERedis))
    else (FWorld w1 (S n), Done (Err ERedis)).
  Proof.
    intros Hr. unfold re_enqueue, job_enqueue, get_now_as_ms, get_now, save_and_notify, upsert_to_storage.
    rewrite Hr. cbn [bind do]. rewrite run_f_rem. destruct (faults n) eqn:E0; cbn [ok_of wr bind do]; [|done|done].
    rewrite run_f_now. cbn [bind do].
    change (set_ctx j (set_enqueue_at (set_jstatus (ctx j) Queued) (ms_of (clock (reads (w_rem name w Running (jid j)))))))
      with (enq j (now_ms clock w)).
    rewrite run_f_put. destruct (faults (S n)) eqn:E1; cbn [ok_of wr bind do]; [|done|done].
    rewrite run_f_send. cbn [bind do]. rewrite run_f_push. done.
  Qed.

  Lemma not_retried_same (j jr : job M) u :
    not_retried j u jr → jid jr = jid j ∧ jstatus (ctx jr) = jstatus (ctx j) ∧ jtype (ctx jr) = jtype (ctx j) ∧ data jr = data j.
  Proof. by destruct 1. Qed.
  Lemma goes_on_jid now now2 (j nj : job M) u : goes_on sched now now2 j u nj → jid nj = jid j.
  Proof. destruct 1 as [| | |jr ?????? H|jr ????? H]; try done; by destruct (not_retried_same _ _ _ H) as (? & _). Qed.
  Lemma goes_on_status now now2 (j nj : job M) u : goes_on sched now now2 j u nj → jstatus (ctx nj) = jstatus (ctx j).
  Proof. destruct 1 as [| | |jr ?????? H|jr ????? H]; try done; by destruct (not_retried_same _ _ _ H) as (_ & ? & _). Qed.
  Lemma norm_in z : i32_min <= z <= i32_max → i32_norm prof z = Some z.
  Proof. intros H. unfold i32_norm, in_i32. by rewrite (proj2 (Z.leb_le _ _)), (proj2 (Z.leb_le _ _)) by lia. Qed.

  (** No retry: the next tick decides. *)
  Lemma not_retried_tail (j jr : job M) u :
    not_retried j u jr → execute_tail prof sched name j u = execute_finish prof sched name jr (ur_failed u).
  Proof.
    destruct 1 as [Hr|r b Hr Hu Hb|r r' Hr Hu]; unfold execute_tail; rewrite Hr; [done|..]; rewrite Hu; unfold call_retry_at; [|done].
    assert (b && should_retry r = false) as ->.
    { destruct Hb as [->|(x & Hx & Hl)]; [done|]. unfold should_retry. rewrite Hx, (proj2 (Z.ltb_ge _ _)) by done. apply andb_false_r. }
    cbn [bind]. f_equal. destruct j as [[]]. cbn in Hr |- *. by rewrite Hr.
  Qed.
  (** The clock is read, then the job is queued again. *)
  Lemma goes_on_tail faults w n (j nj : job M) u :
    goes_on sched (clock (reads w)) (clock (S (reads w))) j u nj →
    ∃ w0, (∀ s, qlist w0 s = qlist w s) ∧ (∀ k, stored w0 k = stored w k) ∧
      run (fh faults) (execute_tail prof sched name j u) (FWorld w n) = run (fh faults) (re_enqueue name nj) (FWorld w0 n).
  Proof.
    destruct 1 as [c m d Hr Hu Hm Hc Hd|c m d Hr Hu Hm Hc Hd|r r' t Hr Hu|jr e slot k cc f up Hr Ht Hs Hf Hk Hm He|jr e slot k cc f Hr Ht Hs Hf Hm He].
    - exists (w_tick w). split; [done|]. split; [done|]. unfold execute_tail. rewrite Hr, Hu. unfold call_retry_at.
      assert (should_retry (Retry c m (Interval d)) = true) as Hsh.
      { unfold should_retry. cbn. destruct m as [x|]; [|done]. apply Z.ltb_lt. by apply Hm. }
      rewrite Hsh. cbn [andb]. unfold get_now. cbn [bind do]. rewrite run_f_now.
      unfold retry_retry_at. cbn [retried_times max_retries strat]. rewrite norm_in by lia. cbn [mbind option_bind].
      unfold dt_add. rewrite (proj2 (Z.leb_le _ _)), (proj2 (Z.leb_le _ _)) by lia. cbn [andb mbind option_bind bind].
      done.
    - exists (w_tick w). split; [done|]. split; [done|]. unfold execute_tail. rewrite Hr, Hu. unfold call_retry_at.
      assert (should_retry (Retry c m (ExponentialBackoff d)) = true) as Hsh.
      { unfold should_retry. cbn. destruct m as [x|]; [|done]. apply Z.ltb_lt. by apply Hm. }
      rewrite Hsh. cbn [andb]. unfold get_now. cbn [bind do]. rewrite run_f_now.
      unfold retry_retry_at. cbn [retried_times max_retries strat]. rewrite norm_in by (unfold i32_min, i32_max; lia). cbn [mbind option_bind].
      unfold pow2_i32. rewrite Z.mod_small by lia. rewrite (proj2 (Z.leb_le _ _)) by lia. cbn [mbind option_bind].
      unfold dt_add. rewrite (proj2 (Z.leb_le dt_min _)), (proj2 (Z.leb_le _ dt_max)) by lia. cbn [andb mbind option_bind bind].
      done.
    - exists w. split; [done|]. split; [done|]. unfold execute_tail. rewrite Hr, Hu. done.
    - exists (w_tick (w_tick w)). split; [done|]. split; [done|]. rewrite (not_retried_tail _ _ _ Hr).
      destruct (not_retried_same _ _ _ Hr) as (_ & _ & Ht' & Hdt). rewrite <-Ht' in Ht.
      unfold execute_finish, next_tick, get_now. cbn [bind do]. rewrite run_f_now. rewrite Ht, Hs. cbn [bind do].
      rewrite run_f_now. change (reads (w_tick w)) with (S (reads w)). rewrite Hf, norm_in by lia. rewrite <-Hdt.
      destruct (max_repeat cc) as [x|] eqn:Em.
      + rewrite (proj2 (Z.ltb_ge _ _)) by (by apply Hm).
        destruct (end_at cc) as [y|] eqn:Ee; [rewrite (proj2 (Z.ltb_ge _ _)) by (by apply He)|]; done.
      + destruct (end_at cc) as [y|] eqn:Ee; [rewrite (proj2 (Z.ltb_ge _ _)) by (by apply He)|]; done.
    - exists (w_tick (w_tick w)). split; [done|]. split; [done|]. rewrite (not_retried_tail _ _ _ Hr).
      destruct (not_retried_same _ _ _ Hr) as (_ & _ & Ht' & Hdt). rewrite <-Ht' in Ht.
      unfold execute_finish, next_tick, get_now. cbn [bind do]. rewrite run_f_now. rewrite Ht, Hs. cbn [bind do].
      rewrite run_f_now. change (reads (w_tick w)) with (S (reads w)). rewrite Hf.
      destruct (max_repeat cc) as [x|] eqn:Em.
      + rewrite (proj2 (Z.ltb_ge _ _)) by (by apply Hm).
        destruct (end_at cc) as [y|] eqn:Ee; [rewrite (proj2 (Z.ltb_ge _ _)) by (by apply He)|]; done.
      + destruct (end_at cc) as [y|] eqn:Ee; [rewrite (proj2 (Z.ltb_ge _ _)) by (by apply He)|]; done.
  Qed.
  (** The clock is read, then the job is settled. *)
  Lemma ends_tail faults w n (j jr : job M) u :
    ends sched (clock (reads w)) j u jr →
    ∃ w0, (∀ s, qlist w0 s = qlist w s) ∧ (∀ k, stored w0 k = stored w k) ∧
      run (fh faults) (execute_tail prof sched name j u) (FWorld w n) =
      run (fh faults) (if ur_failed u then mark_job_is_failed name jr else mark_job_is_finished name jr) (FWorld w0 n).
  Proof.
    intros [Hr Hc]. rewrite (not_retried_tail _ _ _ Hr). destruct (not_retried_same _ _ _ Hr) as (_ & _ & Ht' & _).
    rewrite <-Ht' in Hc. unfold execute_finish, next_tick, get_now. cbn [bind do]. rewrite run_f_now.
    destruct (jtype (ctx jr)) as [|t|e slot k cc]; [by exists (w_tick w)|by exists (w_tick w)|].
    destruct (sched e) as [f|] eqn:Es; [|by exists (w_tick w)].
    destruct (Hc e slot k cc eq_refl) as [Hk He]; [by rewrite Es|].
    exists (w_tick (w_tick w)). split; [done|]. split; [done|]. cbn [bind do]. rewrite run_f_now, norm_in by lia.
    destruct He as [(x & Hx & Hl)|(x & Hx & Hl)].
    - rewrite Hx, (proj2 (Z.ltb_lt _ _)) by done. by destruct (f _).
    - rewrite Hx, (proj2 (Z.ltb_lt x _)) by done. destruct (f _), (match max_repeat cc with Some m => m <? k | None => false end); done.
  Qed.
  Lemma ends_or_goes_on now now2 (j : job M) u : in_range now j →
    (∃ nj, goes_on sched now now2 j u nj) ∨ (∃ jr, ends sched now j u jr).
  Proof.
    intros [H1 H2].
    assert ((∃ nj, goes_on sched now now2 j u nj) ∨ ∃ jr, not_retried j u jr) as [|[jr Hr]]; [|by left|].
    { destruct (jretry (ctx j)) as [[c m str]|] eqn:Er; [|right; exists j; by constructor].
      destruct (ur_retry u) as [b|r' [t|]] eqn:Eu; [|left; eexists; by eapply go_custom|right; eexists; by eapply nr_custom].
      destruct b; [|right; exists j; eapply nr_default; [done|done|by left]].
      assert ((∃ x, m = Some x ∧ x <= c) ∨ ∀ x, m = Some x → c < x) as [Hm|Hm].
      { destruct m as [x|]; [|by right]. destruct (Z_le_gt_dec x c); [left; eauto|right]. intros y [= ->]. lia. }
      - right. exists j. eapply nr_default; [done|done|by right].
      - left. destruct str as [d|d]; destruct H1; eexists; [by eapply go_retry|by eapply go_backoff]. }
    destruct (jtype (ctx j)) as [|t|e slot k cc] eqn:Et; [right; exists jr; split; [done|by rewrite Et]..|].
    destruct (sched e) as [f|] eqn:Es.
    2:{ right. exists jr. split; [done|]. rewrite Et. intros ???? [= <- _ _ _]. by rewrite Es. }
    assert ((∃ x, max_repeat cc = Some x ∧ x < k) ∨ ∀ x, max_repeat cc = Some x → k <= x) as [Hm|Hm].
    { destruct (max_repeat cc) as [x|]; [|by right]. destruct (Z_lt_ge_dec x k); [left; eauto|right]. intros y [= ->]. lia. }
    { right. exists jr. split; [done|]. rewrite Et. intros ???? [= <- <- <- <-] _. auto. }
    assert ((∃ x, end_at cc = Some x ∧ x < now) ∨ ∀ x, end_at cc = Some x → now <= x) as [He|He].
    { destruct (end_at cc) as [x|]; [|by right]. destruct (Z_lt_ge_dec x now); [left; eauto|right]. intros y [= ->]. lia. }
    { right. exists jr. split; [done|]. rewrite Et. intros ???? [= <- <- <- <-] _. auto. }
    left. destruct (f now2) as [up|] eqn:Ef; eexists; [by eapply go_cron|by eapply go_same].
  Qed.

  Lemma every_end now now2 (j : job M) u : in_range now j →
    ((∃ nj, goes_on sched now now2 j u nj) ∨ (∃ jr, ends sched now j u jr)) ∧
    (∀ nj jr, goes_on sched now now2 j u nj → ends sched now j u jr → False).
  Proof.
    intros Hi. split; [by apply ends_or_goes_on|]. intros nj jr Hg [Hr Hc].
    assert (∀ c m str, jretry (ctx j) = Some (Retry c m str) → ur_retry u = DefaultRetryAt true →
      (∀ x, m = Some x → c < x) → False) as Hd.
    { intros c m str H1 H2 H3. destruct Hr as [H|r b H Hu [->|(x & Hx & Hl)]|r r' H Hu]; try congruence.
      rewrite H in H1. injection H1 as ->. cbn in Hx, Hl. specialize (H3 _ Hx). lia. }
    destruct Hg as [c m d H1 H2 H3|c m d H1 H2 H3|r r' t H1 H2|jr' e slot k cc f up _ Ht Hs Hf Hk Hm He|jr' e slot k cc f _ Ht Hs Hf Hm He].
    1,2: by eapply Hd.
    - destruct Hr; congruence.
    - destruct (Hc _ _ _ _ Ht) as [_ [(x & Hx & Hl)|(x & Hx & Hl)]]; [congruence| |].
      + specialize (Hm _ Hx). lia.
      + specialize (He _ Hx). unfold time in *. lia.
    - destruct (Hc _ _ _ _ Ht) as [_ [(x & Hx & Hl)|(x & Hx & Hl)]]; [congruence| |].
      + specialize (Hm _ Hx). lia.
      + specialize (He _ Hx). unfold time in *. lia.
  Qed.

  Lemma again_outcome faults (s : fsys) i (orig j nj : job M) u :
    let n := ops (sw s) in
    let r := fstep faults s (EvTask i u) in
    let w := fw (sw s) in let w' := fw (sw r.1) in
    let f := fate_of (faults n) (faults (S n)) (faults (S (S n))) in
    let removed := faults n ≠ FBefore ∨ faults (S n) = FOk ∧ faults (S (S n)) ≠ FBefore in
    alive s = true → tasks s !! i = Some (Task orig j AfterHook) → jid orig = jid j → jstatus (ctx j) = Running →
    goes_on sched (clock (reads w)) (clock (S (reads w))) j u nj →
    tasks r.1 = delete i (tasks s) ∧ alive r.1 = true ∧ runs r.1 = runs s ∧
    match f with
    | Waits | Stray => ∃ j' t, stored w' (jid j) = Some j' ∧
        read_back (Job (set_enqueue_at (set_jstatus (ctx nj) Queued) t) (data nj)) j'
    | GivenUp => ∃ j' t, stored w' (jid j) = Some j' ∧
        read_back (Job (set_complete_at (set_jstatus (ctx orig) Failed) t) (data orig)) j'
    | Untouched => stored w' (jid j) = stored w (jid j)
    end ∧
    qlist w' Queued = match f with Waits => jid j :: qlist w Queued | _ => qlist w Queued end ∧
    (removed → qlist w' Running = filter (λ y, y ≠ jid j) (qlist w Running)) ∧
    (¬ removed → qlist w' Running = qlist w Running).
  Proof.
    intros n r w w' f removed Ha Hi Ho Hst Hg.
    pose proof (goes_on_jid _ _ _ _ _ Hg) as Hnj. pose proof (goes_on_status _ _ _ _ _ Hg) as Hns. rewrite Hst in Hns.
    subst w w' f r removed n. unfold sys_step. rewrite Ha. unfold commit. cbn [ev_prog].
    rewrite Hi. destruct (sw s) as [w n] eqn:Ew. cbn [ops fw] in *.
    unfold task_step. cbn [t_phase t_orig t_job]. rewrite !run_bind. unfold task_tail. rewrite run_bind.
    destruct (goes_on_tail faults w n j nj u Hg) as (w0 & Hq0 & Hs0 & ->). clear Hg.
    rewrite run_f_re_enqueue by done.
    assert (Hq : ∀ w s m, qlist (w_send w m) s = qlist w s) by done.
    assert (Hs : ∀ w k m, stored (w_send w m) k = stored w k) by done.
    assert (Hqt : ∀ w s, qlist (w_tick w) s = qlist w s) by done.
    assert (Hsdt : ∀ w k, stored (w_tick w) k = stored w k) by done.
    assert (eid : ∀ t, jid (enq nj t) = jid j) by (intros; exact Hnj).
    assert (aid : ∀ t, jid (fai orig t) = jid j) by (intros; exact Ho).
    assert (Hpq : ∀ f w s, s ≠ Queued → ∀ x, qlist (wr f w (w_push name w s x)) Queued = qlist w Queued).
    { intros f w1 s1 H x. destruct f; cbn [wr]; rewrite ?qlist_push, ?bool_decide_false by done; done. }
    assert (Hrq : ∀ f w x, qlist (wr f w (w_rem name w Running x)) Queued = qlist w Queued).
    { intros f w1 x. destruct f; cbn [wr]; rewrite ?qlist_rem, ?bool_decide_false by done; done. }
    assert (Hend : ∀ (j0 : job M) c, ∃ j', Some (norm_job (Job c (data j0))) = Some j' ∧ read_back (Job c (data j0)) j').
    { intros j0 c. eexists. split; [done|]. apply (read_back_norm (Job _ _)). }
    assert (Hq1 : ∀ t0 : Z, ∃ j' t, Some (norm_job (enq nj t0)) = Some j' ∧
      read_back (Job (set_enqueue_at (set_jstatus (ctx nj) Queued) t) (data nj)) j').
    { intros t. destruct (Hend nj (set_enqueue_at (set_jstatus (ctx nj) Queued) t)) as (j' & ? & ?).
      exists j', t. by split. }
    assert (Hf1 : ∀ t0 : Z, ∃ j' t, Some (norm_job (fai orig t0)) = Some j' ∧
      read_back (Job (set_complete_at (set_jstatus (ctx orig) Failed) t) (data orig)) j').
    { intros t. destruct (Hend orig (set_complete_at (set_jstatus (ctx orig) Failed) t)) as (j' & ? & ?).
      exists j', t. by split. }
    clear Hend.
    assert (Hff : ∀ l : list string, filter (λ y, y ≠ jid j) (filter (λ y, y ≠ jid j) l) = filter (λ y, y ≠ jid j) l).
    { intros l. rewrite list_filter_filter. apply list_filter_iff. naive_solver. }
    assert (Hpp : ∀ f w, qlist (wr f w (w_push name w Queued (jid j))) Queued =
      match f with FBefore => qlist w Queued | _ => jid j :: qlist w Queued end).
    { intros f w1. destruct f; cbn [wr]; rewrite ?qlist_push, ?bool_decide_true by done; done. }
    Local Ltac st Hs Hsdt Hs0 := repeat first [rewrite s_wr_push|rewrite s_wr_rem|rewrite Hs|rewrite Hsdt|rewrite s_wr_put by done]; rewrite ?Hs0.
    Local Ltac qs Hq Hqt Hq0 := repeat first [rewrite q_wr_put|rewrite Hq|rewrite Hqt|rewrite q_wr_rem|rewrite q_wr_push by done]; rewrite ?Hq0.
    Local Ltac qq Hpp Hpq Hrq Hq Hqt Hq0 := repeat first [rewrite q_wr_put|rewrite Hq|rewrite Hqt|rewrite Hrq|rewrite Hpp|rewrite Hpq by done]; rewrite ?Hq0.
    rewrite Hnj.
    destruct (ok_of (faults n)) eqn:F0; [destruct (ok_of (faults (S n))) eqn:F1|].
    - cbn -[Spec.qlist Spec.stored wr]. split; [done|]. split; [done|]. split; [by rewrite ?app_nil_r|].
      st Hs Hsdt Hs0. qs Hq Hqt Hq0. qq Hpp Hpq Hrq Hq Hqt Hq0.
      destruct (faults n), (faults (S n)); try done.
      destruct (faults (S (S n))); cbn [fate_of flt]; (split; [apply Hq1|]); (split; [done|]);
        (split; [done|intros Hn; exfalso; apply Hn; by left]).
    - rewrite run_bind, run_f_fail. rewrite Ho. destruct (ok_of (faults (S (S n)))) eqn:F2;
      cbn -[Spec.qlist Spec.stored wr]; (split; [done|]); (split; [done|]); (split; [by rewrite ?app_nil_r|]);
      st Hs Hsdt Hs0; qs Hq Hqt Hq0; qq Hpp Hpq Hrq Hq Hqt Hq0.
      all: destruct (faults n); try done; destruct (faults (S n)); try done; destruct (faults (S (S n))); try done;
        destruct (faults (S (S (S n)))); cbn [fate_of flt]; rewrite ?Hff.
      all: (split; [first [apply Hq1|apply Hf1|done]|]); (split; [done|]).
      all: (split; [done|intros Hn; exfalso; apply Hn; by left]).
    - rewrite run_bind, run_f_fail. rewrite Ho. destruct (ok_of (faults (S n))) eqn:F1;
      cbn -[Spec.qlist Spec.stored wr]; (split; [done|]); (split; [done|]); (split; [by rewrite ?app_nil_r|]);
      st Hs Hsdt Hs0; qs Hq Hqt Hq0; qq Hpp Hpq Hrq Hq Hqt Hq0.
      all: destruct (faults n); try done; destruct (faults (S n)); try done; destruct (faults (S (S n))); try done;
        destruct (faults (S (S (S n)))); cbn [fate_of flt]; rewrite ?Hff.
      all: (split; [first [apply Hq1|apply Hf1|done]|]); (split; [done|]).
      all: split; intros Hn; first [done|exfalso; naive_solver].
  Qed.

  Lemma end_outcome faults (s : fsys) i (orig j jr : job M) u :
    let n := ops (sw s) in
    let r := fstep faults s (EvTask i u) in
    let w := fw (sw s) in let w' := fw (sw r.1) in
    let k := if ur_failed u then n else S n in
    let removed :=
      (if ur_failed u then faults n = FOk ∧ faults (S n) ≠ FBefore else faults n ≠ FBefore) ∨
      faults k ≠ FOk ∧ faults (S k) = FOk ∧ faults (S (S k)) ≠ FBefore in
    alive s = true → tasks s !! i = Some (Task orig j AfterHook) → jid orig = jid j →
    ends sched (clock (reads w)) j u jr →
    tasks r.1 = delete i (tasks s) ∧ alive r.1 = true ∧ runs r.1 = runs s ∧
    let ended (j0 : job M) st := ∃ j' t, stored w' (jid j) = Some j' ∧
      read_back (Job (set_complete_at (set_jstatus (ctx j0) st) t) (data j0)) j' in
    match result_of (faults k) (faults (S k)) with
    | Some true => ended jr (if ur_failed u then Failed else Finished)
    | Some false => ended orig Failed
    | None => stored w' (jid j) = stored w (jid j)
    end ∧
    qlist w' Queued = qlist w Queued ∧
    (removed → qlist w' Running = filter (λ y, y ≠ jid j) (qlist w Running)) ∧
    (¬ removed → qlist w' Running = qlist w Running).
  Proof.
    intros n r w w' k removed Ha Hi Ho Hg.
    destruct (not_retried_same _ _ _ (proj1 Hg)) as (Hnj & _).
    subst w w' k r removed n. unfold sys_step. rewrite Ha. unfold commit. cbn [ev_prog].
    rewrite Hi. destruct (sw s) as [w n] eqn:Ew. cbn [ops fw] in *.
    unfold task_step. cbn [t_phase t_orig t_job]. rewrite !run_bind. unfold task_tail. rewrite run_bind.
    destruct (ends_tail faults w n j jr u Hg) as (w0 & Hq0 & Hs0 & ->). clear Hg.
    assert (Hq : ∀ w s m, qlist (w_send w m) s = qlist w s) by done.
    assert (Hs : ∀ w k m, stored (w_send w m) k = stored w k) by done.
    assert (Hqt : ∀ w s, qlist (w_tick w) s = qlist w s) by done.
    assert (Hsdt : ∀ w k, stored (w_tick w) k = stored w k) by done.
    assert (fid : ∀ t, jid (WorldFacts.fin jr t) = jid j) by (intros; exact Hnj).
    assert (rid : ∀ t, jid (fai jr t) = jid j) by (intros; exact Hnj).
    assert (aid : ∀ t, jid (fai orig t) = jid j) by (intros; exact Ho).
    assert (Hpq : ∀ f w s, s ≠ Queued → ∀ x, qlist (wr f w (w_push name w s x)) Queued = qlist w Queued).
    { intros f w1 s1 H x. destruct f; cbn [wr]; rewrite ?qlist_push, ?bool_decide_false by done; done. }
    assert (Hrq : ∀ f w x, qlist (wr f w (w_rem name w Running x)) Queued = qlist w Queued).
    { intros f w1 x. destruct f; cbn [wr]; rewrite ?qlist_rem, ?bool_decide_false by done; done. }
    assert (Hend : ∀ (j0 : job M) c, ∃ j', Some (norm_job (Job c (data j0))) = Some j' ∧ read_back (Job c (data j0)) j').
    { intros j0 c. eexists. split; [done|]. apply (read_back_norm (Job _ _)). }
    assert (Hq1 : ∀ t0 : Z, ∃ j' t, Some (norm_job (WorldFacts.fin jr t0)) = Some j' ∧
      read_back (Job (set_complete_at (set_jstatus (ctx jr) Finished) t) (data jr)) j').
    { intros t. destruct (Hend jr (set_complete_at (set_jstatus (ctx jr) Finished) t)) as (j' & ? & ?).
      exists j', t. by split. }
    assert (Hf0 : ∀ t0 : Z, ∃ j' t, Some (norm_job (fai jr t0)) = Some j' ∧
      read_back (Job (set_complete_at (set_jstatus (ctx jr) Failed) t) (data jr)) j').
    { intros t. destruct (Hend jr (set_complete_at (set_jstatus (ctx jr) Failed) t)) as (j' & ? & ?).
      exists j', t. by split. }
    assert (Hf1 : ∀ t0 : Z, ∃ j' t, Some (norm_job (fai orig t0)) = Some j' ∧
      read_back (Job (set_complete_at (set_jstatus (ctx orig) Failed) t) (data orig)) j').
    { intros t. destruct (Hend orig (set_complete_at (set_jstatus (ctx orig) Failed) t)) as (j' & ? & ?).
      exists j', t. by split. }
    clear Hend.
    assert (Hff : ∀ l : list string, filter (λ y, y ≠ jid j) (filter (λ y, y ≠ jid j) l) = filter (λ y, y ≠ jid j) l).
    { intros l. rewrite list_filter_filter. apply list_filter_iff. naive_solver. }
    destruct (ur_failed u).
    - rewrite run_f_fail, Hnj. destruct (ok_of (faults n)) eqn:F0.
      + cbn -[Spec.qlist Spec.stored wr]. split; [done|]. split; [done|]. split; [by rewrite ?app_nil_r|].
        st Hs Hsdt Hs0. qs Hq Hqt Hq0. repeat first [rewrite q_wr_put|rewrite Hq|rewrite Hqt|rewrite Hrq|rewrite Hpq by done]; rewrite ?Hq0.
        destruct (faults n); try done. cbn [result_of]. split; [apply Hf0|]. split; [done|].
        destruct (faults (S n)); cbn [flt]; split; intros Hn; first [done|exfalso; naive_solver].
      + rewrite run_bind, run_f_fail. rewrite Ho. destruct (ok_of (faults (S n))) eqn:F1;
        cbn -[Spec.qlist Spec.stored wr]; (split; [done|]); (split; [done|]); (split; [by rewrite ?app_nil_r|]);
        st Hs Hsdt Hs0; qs Hq Hqt Hq0; repeat first [rewrite q_wr_put|rewrite Hq|rewrite Hqt|rewrite Hrq|rewrite Hpq by done]; rewrite ?Hq0.
        all: destruct (faults n); try done; destruct (faults (S n)); try done; destruct (faults (S (S n)));
          cbn [result_of flt]; rewrite ?Hff.
        all: (split; [first [apply Hf0|apply Hf1|done]|]); (split; [done|]).
        all: split; intros Hn; first [done|exfalso; naive_solver].
    - rewrite run_f_finish, Hnj. destruct (ok_of (faults (S n))) eqn:F0.
      + cbn -[Spec.qlist Spec.stored wr]. split; [done|]. split; [done|]. split; [by rewrite ?app_nil_r|].
        st Hs Hsdt Hs0. qs Hq Hqt Hq0. repeat first [rewrite q_wr_put|rewrite Hq|rewrite Hqt|rewrite Hrq|rewrite Hpq by done]; rewrite ?Hq0.
        destruct (faults (S n)); try done. cbn [result_of]. split; [apply Hq1|]. split; [done|].
        destruct (faults n); cbn [flt]; split; intros Hn; first [done|exfalso; naive_solver].
      + rewrite run_bind, run_f_fail. rewrite Ho. destruct (ok_of (faults (S (S n)))) eqn:F1;
        cbn -[Spec.qlist Spec.stored wr]; (split; [done|]); (split; [done|]); (split; [by rewrite ?app_nil_r|]);
        st Hs Hsdt Hs0; qs Hq Hqt Hq0; repeat first [rewrite q_wr_put|rewrite Hq|rewrite Hqt|rewrite Hrq|rewrite Hpq by done]; rewrite ?Hq0.
        all: destruct (faults n), (faults (S n)); try done; destruct (faults (S (S n))); try done; destruct (faults (S (S (S n))));
          cbn [result_of flt]; rewrite ?Hff.
        all: (split; [first [apply Hq1|apply Hf1|done]|]); (split; [done|]).
        all: split; intros Hn; first [done|exfalso; naive_solver].
  Qed.
End cases.

Section forever.
  Context {M : Type} `{SM : Serde M} {SO : SerdeOk M}.
  Context (prof : profile).
  Context (sched : string → option (time → option time)).
  Context (name : string).
  Context (clock : nat → time).
  Lemma stray_forever (s : sys world M) id (j : job M) es :
    (∀ k j', stored (M := M) (sw s) k = Some j' → jid j' = k) →
    stored (M := M) (sw s) id = Some j → jstatus (ctx j) = Queued → id ∉ qlist name (sw s) Queued →
    Forall (λ t, jid (t_orig t) ≠ id ∧ jid (t_job t) ≠ id) (tasks s) →
    Forall (no_way_back id) es →
    let s' := sys_run prof sched name (mem_h clock) s es in
    runs_of id s' = runs_of id s ∧ id ∉ qlist name (sw s') Queued ∧ status_of s' id = Some Queued.
  Proof.
    intros Hk Hj Hq Hn Ht He s'.
    destruct (stray_run prof sched name clock id s es He) as [[(_ & (j' & Hj' & Hq') & Hn') _] Hr].
    { split; [|done]. split; [done|]. split; [|done]. exists j. split; [done|]. unfold is_queued. by rewrite Hq. }
    fold s' in Hj', Hn', Hr. split; [done|]. split; [done|]. unfold status_of. rewrite Hj'. cbn.
    unfold is_queued in Hq'. by destruct (jstatus (ctx j')).
  Qed.
End forever.
