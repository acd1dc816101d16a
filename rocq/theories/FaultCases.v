(** What single operations do for every combination of failing backend calls. *)
From Verif Require Import Spec JsonFacts BackendFacts WorldFacts MicroFacts LifeFacts HistFacts
  SubmitFacts PickFacts StarveFacts ApiFacts FaultFacts CrashFacts.

Section cases.
  Context {M : Type} `{SM : Serde M} {SO : SerdeOk M}.
  Context (prof : profile).
  Context (sched : string → option (time → option time)).
  Context (name : string).
  Context (clock : nat → time).
  Notation qname := (format_queue_name name).
  Notation qlist := (qlist name).
  Notation stored := (@stored M SM).
  Notation fsys := (Sys.sys fworld M).
  Notation fh faults := (faulty_h clock faults).
  Notation fstep faults := (sys_step prof sched name (faulty_h clock faults)).

  (** *** One call *)
  Lemma run_f_push {A} faults s x w n (k : _ → prog A) :
    run (fh faults) (Eff (QPush (qname s) x) k) (FWorld w n) =
    run (fh faults) (k (match faults n with FOk => Ok tt | _ => Err ERedis end))
      (FWorld (match faults n with FBefore => w | _ => w_push name w s x end) (S n)).
  Proof. cbn -[faulty_h]. unfold faulty_h at 1. cbn [fail_ans ops fw]. by destruct (faults n). Qed.
  Lemma run_f_rem {A} faults s x w n (k : _ → prog A) :
    run (fh faults) (Eff (QRemove (qname s) x) k) (FWorld w n) =
    run (fh faults) (k (match faults n with FOk => Ok tt | _ => Err ERedis end))
      (FWorld (match faults n with FBefore => w | _ => w_rem name w s x end) (S n)).
  Proof. cbn -[faulty_h]. unfold faulty_h at 1. cbn [fail_ans ops fw]. by destruct (faults n). Qed.
  Lemma run_f_put {A} faults (j : job M) w n (k : _ → prog A) :
    run (fh faults) (Eff (SUpsert STORAGE_HASH (jid j) (enc_job j)) k) (FWorld w n) =
    run (fh faults) (k (match faults n with FOk => Ok tt | _ => Err ERedis end))
      (FWorld (match faults n with FBefore => w | _ => w_put w j end) (S n)).
  Proof. cbn -[faulty_h]. unfold faulty_h at 1. cbn [fail_ans ops fw]. by destruct (faults n). Qed.
  Lemma run_f_get faults k w n :
    run (fh faults) (get_from_storage (M:=M) k) (FWorld w n) =
    (FWorld w (S n), Done (Ok (match faults n with FOk => stored w k | _ => None end))).
  Proof.
    unfold get_from_storage. rewrite run_bind. cbn -[faulty_h]. unfold faulty_h. cbn [fail_ans ops fw].
    by destruct (faults n).
  Qed.
  Lemma run_f_now {A} faults w n (k : _ → prog A) :
    run (fh faults) (Eff Now k) (FWorld w n) = run (fh faults) (k (clock (reads w))) (FWorld (w_tick w) n).
  Proof. done. Qed.
  Lemma run_f_send {A} faults m w n (k : _ → prog A) :
    run (fh faults) (Eff (Send m) k) (FWorld w n) = run (fh faults) (k tt) (FWorld (w_send w m) n).
  Proof. done. Qed.

  (** *** Submission of a new id, or of an id that cannot be read *)
  Definition wr (f : fault) (w w' : world) : world := match f with FBefore => w | _ => w' end.
  Definition ok_of (f : fault) : bool := match f with FOk => true | _ => false end.
  Definition f_enqueue (faults : nat → fault) (w : world) (n : nat) (j : job M) : world * bool :=
    let w1 := wr (faults n) w (w_push name w Queued (jid j)) in
    if ok_of (faults n) then
      let w2 := wr (faults (S n)) (w_tick w1) (w_put (w_tick w1) (enq j (now_ms clock w))) in
      if ok_of (faults (S n)) then (w_send w2 (ChangeStatus (jid j) Queued), true) else (w2, false)
    else (w1, false).
  Lemma run_f_enqueue faults w n (j : job M) :
    ∃ n', run (fh faults) (enqueue name j) (FWorld w n) =
      (FWorld (f_enqueue faults w n j).1 n', Done (if (f_enqueue faults w n j).2 then Ok tt else Err ERedis)).
  Proof.
    unfold enqueue, f_enqueue. cbn [bind do]. rewrite run_f_push.
    destruct (faults n) eqn:E1; cbn [ok_of wr].
    2,3: by eexists.
    unfold job_enqueue, get_now_as_ms, get_now, save_and_notify, upsert_to_storage. cbn [bind do].
    rewrite run_f_now. cbn [bind do].
    change (set_ctx j (set_enqueue_at (set_jstatus (ctx j) Queued) (ms_of (clock (reads (w_push name w Queued (jid j)))))))
      with (enq j (now_ms clock w)).
    rewrite run_f_put.
    destruct (faults (S n)) eqn:E2; cbn [ok_of wr bind do]; by eexists.
  Qed.

  Lemma submit_outcomes faults (s : fsys) (j : job M) c :
    let n := ops (sw s) in
    alive s = true → faults n ≠ FOk ∨ stored (fw (sw s)) (jid j) = None →
    let r := fstep faults s (EvEnqueue j c) in
    let pushed := match faults (S n) with FBefore => false | _ => true end in
    let written := match faults (S n), faults (S (S n)) with FOk, FBefore => false | FOk, _ => true | _, _ => false end in
    let acknowledged := match faults (S n), faults (S (S n)) with FOk, FOk => true | _, _ => false end in
    r.2 = RUnit (if acknowledged then Ok tt else Err ERedis) ∧
    (∀ st, qlist (fw (sw r.1)) st =
       (if pushed && bool_decide (st = Queued) then [jid j] else []) ++ qlist (fw (sw s)) st) ∧
    (∀ k, k ≠ jid j → stored (fw (sw r.1)) k = stored (fw (sw s)) k) ∧
    (if written
     then ∃ j' t, stored (fw (sw r.1)) (jid j) = Some j' ∧
            read_back (Job (set_enqueue_at (set_jstatus (ctx j) Queued) t) (data j)) j'
     else stored (fw (sw r.1)) (jid j) = stored (fw (sw s)) (jid j)) ∧
    tasks r.1 = tasks s ∧ alive r.1 = true.
  Proof.
    intros n Ha Hn. unfold sys_step. rewrite Ha. unfold commit. cbn [ev_prog].
    unfold run_with_config. rewrite !run_bind. destruct (sw s) as [w n0] eqn:Ew. cbn [ops fw] in *. subst n.
    rewrite run_f_get.
    assert (match faults n0 with FOk => stored w (jid j) | _ => None end = None) as ->.
    { destruct Hn as [Hn| ->]; by destruct (faults n0). }
    destruct (run_f_enqueue faults w (S n0) j) as [n' ->]. unfold f_enqueue.
    destruct (faults (S n0)) eqn:E1; cbn [ok_of wr].
    - destruct (faults (S (S n0))) eqn:E2; cbn -[qlist stored].
      + split; [done|]. split; [|split; [|split]].
        * intros st. rewrite qlist_send, qlist_put, qlist_tick, qlist_push. by destruct st.
        * intros k Hk. rewrite stored_send, stored_put, bool_decide_false by done. by rewrite stored_tick, stored_push.
        * rewrite stored_send, stored_put, bool_decide_true by done. eexists _, _. split; [done|]. apply (read_back_norm (Job _ _)).
        * done.
      + split; [done|]. split; [|split; [|split]].
        * intros st. rewrite qlist_tick, qlist_push. by destruct st.
        * intros k Hk. by rewrite stored_tick, stored_push.
        * by rewrite stored_tick, stored_push.
        * done.
      + split; [done|]. split; [|split; [|split]].
        * intros st. rewrite qlist_put, qlist_tick, qlist_push. by destruct st.
        * intros k Hk. rewrite stored_put, bool_decide_false by done. by rewrite stored_tick, stored_push.
        * rewrite stored_put, bool_decide_true by done. eexists _, _. split; [done|]. apply (read_back_norm (Job _ _)).
        * done.
    - cbn -[qlist stored]. split; [done|]. split; [done|]. done.
    - cbn -[qlist stored]. split; [done|]. split; [|split; [|split]].
      * intros st. rewrite qlist_push. by destruct st.
      * intros k Hk. by rewrite stored_push.
      * by rewrite stored_push.
      * done.
  Qed.

  (** *** A tick starts at most as many jobs as the limit *)
  Lemma batch_length {W} (h : handler W) total ids (ready : list (job M)) w w' r :
    run h (pick_batch name total ids ready) w = (w', Done (Ok r)) →
    (length ready <= total)%nat → (length r <= total)%nat.
  Proof.
    revert ready w. induction ids as [|id ids IH]; intros ready w; cbn [pick_batch].
    - cbn. by intros [= _ <-].
    - assert (∀ w, run h (let? _ := do (QMove (qname Queued) (qname Queued) 1 Back Front) in
        pick_batch name total ids ready) w = (w', Done (Ok r)) → (length ready <= total)%nat → (length r <= total)%nat) as Hrot.
      { intros w1. rewrite run_bind. cbn. destruct (h _ _ _) as [w2 [x|e]]; [apply IH|]. cbn. done. }
      rewrite run_bind. destruct (run h (get_from_storage id) w) as [w1 [[o|e]| |]]; try done.
      destruct o as [j|]; [|apply Hrot]. cbn [bind do get_now]. cbn [run]. destruct (h _ Now w1) as [w2 now].
      destruct (_ && _ && _) eqn:Eb; [|apply Hrot].
      apply andb_true_iff in Eb as [[_ Hlt%Nat.ltb_lt]%andb_true_iff _].
      rewrite run_bind. destruct (run h (job_process j) w2) as [w3 [[j'|e]| |]]; try done.
      cbn [run]. destruct (h _ _ w3) as [w4 [x|e]]; [|done].
      intros H _. eapply IH; [exact H|]. rewrite app_length. cbn. lia.
  Qed.
  Lemma loop_length {W} (h : handler W) fuel total (ready : list (job M)) cursor w w' r :
    run h (pick_loop prof name fuel total ready cursor) w = (w', Done (Ok r)) →
    (length ready <= total)%nat → (length r <= total)%nat.
  Proof.
    revert ready cursor w. induction fuel as [|fuel IH]; intros ready cursor w; cbn [pick_loop]; [done|].
    rewrite run_bind. cbn [run do]. destruct (h _ _ w) as [w1 [ids|e]]; [|done].
    destruct (i32_norm _ _) as [c'|]; [|done].
    rewrite run_bind. destruct (run h (pick_batch name total ids ready) w1) as [w2 [[r'|e]| |]] eqn:Eb; try done.
    intros H Hl. pose proof (batch_length h _ _ _ _ _ _ Eb Hl) as Hl'.
    destruct (_ <=? _)%nat; [by injection H as _ <-|].
    destruct (c' <=? 0); [by injection H as _ <-|]. by eapply IH.
  Qed.
  Lemma tick_length {W} (h : handler W) (s : Sys.sys W M) :
    (length (tasks (sys_step prof sched name h s EvTick).1) <= length (tasks s) + max_processing_jobs (cfg s))%nat.
  Proof.
    unfold sys_step. destruct (alive s); [|cbn; lia]. unfold commit. cbn [ev_prog]. rewrite run_bind.
    unfold process_jobs. rewrite run_bind.
    destruct (run h (pick_jobs_to_process prof name (max_processing_jobs (cfg s))) (sw s)) as [w [[js|e]| |]] eqn:E;
      cbn; try lia.
    rewrite app_length, map_length. apply Nat.add_le_mono_l. revert E. unfold pick_jobs_to_process.
    rewrite run_bind. cbn [run do]. destruct (h _ _ _) as [w1 n1].
    destruct (_ <=? _)%nat; [cbn; intros [= _ <-]; cbn; lia|].
    unfold try_pick_specific_ready_jobs. rewrite run_bind. cbn [run do]. destruct (h _ _ w1) as [w2 [len|e]]; [|done].
    intros H. pose proof (loop_length h _ _ _ _ _ _ _ H) as Hl. cbn [length] in Hl. specialize (Hl (Nat.le_0_l _)). lia.
  Qed.

  (** *** The end of a successful execution *)
  Lemma run_f_finish faults w n (j : job M) :
    let w1 := wr (faults n) w (w_rem name w Running (jid j)) in
    let w2 := wr (faults (S n)) (w_tick w1) (w_put (w_tick w1) (fin j (now_ms clock w))) in
    run (fh faults) (mark_job_is_finished name j) (FWorld w n) =
    if ok_of (faults (S n))
    then (FWorld (wr (faults (S (S n))) (w_send w2 (ChangeStatus (jid j) Finished))
                    (w_push name (w_send w2 (ChangeStatus (jid j) Finished)) Finished (jid j))) (S (S (S n))),
          Done (Ok tt))
    else (FWorld w2 (S (S n)), Done (Err ERedis)).
  Proof.
    unfold mark_job_is_finished, remove_processing_job, job_finish, get_now_as_ms, get_now, save_and_notify,
      upsert_to_storage. cbn [bind do]. rewrite run_f_rem. cbn [bind do]. rewrite run_f_now. cbn [bind do].
    assert (reads (match faults n with FBefore => w | _ => w_rem name w Running (jid j) end) = reads w) as ->
      by (by destruct (faults n)).
    change (set_ctx j (set_complete_at (set_jstatus (ctx j) Finished) (ms_of (clock (reads w)))))
      with (fin j (now_ms clock w)).
    rewrite run_f_put. fold (wr (faults n) w (w_rem name w Running (jid j))).
    destruct (faults (S n)) eqn:E1; cbn [ok_of wr bind do]; [|done|done].
    rewrite run_f_send. cbn [bind do]. rewrite run_f_push. done.
  Qed.
  Lemma run_f_fail faults w n (j : job M) :
    let w2 := wr (faults n) (w_tick w) (w_put (w_tick w) (fai j (now_ms clock w))) in
    let w3 := w_send w2 (ChangeStatus (jid j) Failed) in
    let w4 := wr (faults (S n)) w3 (w_rem name w3 Running (jid j)) in
    run (fh faults) (mark_job_is_failed name j) (FWorld w n) =
    if ok_of (faults n)
    then (FWorld (wr (faults (S (S n))) w4 (w_push name w4 Failed (jid j))) (S (S (S n))), Done (Ok tt))
    else (FWorld w2 (S n), Done (Err ERedis)).
  Proof.
    unfold mark_job_is_failed, push_failed_job, remove_processing_job, job_fail, get_now_as_ms, get_now,
      save_and_notify, upsert_to_storage. cbn [bind do]. rewrite run_f_now. cbn [bind do].
    change (set_ctx j (set_complete_at (set_jstatus (ctx j) Failed) (ms_of (clock (reads w)))))
      with (fai j (now_ms clock w)).
    rewrite run_f_put.
    destruct (faults n) eqn:E1; cbn [ok_of wr bind do]; [|done|done].
    rewrite run_f_send. cbn [bind do]. rewrite run_f_rem. cbn [bind do]. rewrite run_f_push. done.
  Qed.

  Definition flt (f : fault) (x : string) (l : list string) : list string :=
    match f with FBefore => l | _ => filter (λ y, y ≠ x) l end.
  Lemma q_wr_rem f w x : qlist (wr f w (w_rem name w Running x)) Running = flt f x (qlist w Running).
  Proof. destruct f; cbn [wr flt]; rewrite ?qlist_rem, ?bool_decide_true by done; done. Qed.
  Lemma q_wr_push f w s x : s ≠ Running → qlist (wr f w (w_push name w s x)) Running = qlist w Running.
  Proof. intros H. destruct f; cbn [wr]; rewrite ?qlist_push, ?bool_decide_false by done; done. Qed.
  Lemma q_wr_put f w (j : job M) s : qlist (wr f w (w_put w j)) s = qlist w s.
  Proof. destruct f; cbn [wr]; rewrite ?qlist_put; done. Qed.
  Lemma s_wr_rem f w s x k : stored (wr f w (w_rem name w s x)) k = stored w k.
  Proof. destruct f; cbn [wr]; rewrite ?stored_rem; done. Qed.
  Lemma s_wr_push f w s x k : stored (wr f w (w_push name w s x)) k = stored w k.
  Proof. destruct f; cbn [wr]; rewrite ?stored_push; done. Qed.
  Lemma s_wr_put f w (j : job M) k : jid j = k →
    stored (wr f w (w_put w j)) k = match f with FBefore => stored w k | _ => Some (norm_job j) end.
  Proof. intros H. subst k. destruct f; cbn [wr]; [|done|]; rewrite stored_put, bool_decide_true by done; done. Qed.
  Lemma flt_flt f g x l : flt f x (flt g x l) = match f with FBefore => flt g x l | _ => filter (λ y, y ≠ x) l end.
  Proof.
    assert (filter (λ y, y ≠ x) (filter (λ y, y ≠ x) l) = filter (λ y, y ≠ x) l) as H
      by (rewrite list_filter_filter; apply list_filter_iff; naive_solver).
    by destruct f, g; cbn [flt].
  Qed.

  Lemma completion faults (s : fsys) i (orig j : job M) u :
    let n := ops (sw s) in
    let r := fstep faults s (EvTask i u) in
    let removed := faults n ≠ FBefore ∨
      faults (S n) ≠ FOk ∧ faults (S (S n)) = FOk ∧ faults (S (S (S n))) ≠ FBefore in
    alive s = true → tasks s !! i = Some (Task orig j AfterHook) → jid orig = jid j →
    jtype (ctx j) = Normal → jretry (ctx j) = None → ur_failed u = false →
    tasks r.1 = delete i (tasks s) ∧ alive r.1 = true ∧
    let ended (j0 : job M) st := ∃ j' t, stored (fw (sw r.1)) (jid j) = Some j' ∧
      read_back (Job (set_complete_at (set_jstatus (ctx j0) st) t) (data j0)) j' in
    match faults (S n), faults (S (S n)) with
    | FOk, _ => ended j Finished
    | FAfter, FBefore => ended j Finished
    | FBefore, FBefore => stored (fw (sw r.1)) (jid j) = stored (fw (sw s)) (jid j)
    | _, _ => ended orig Failed
    end ∧
    (removed → qlist (fw (sw r.1)) Running = filter (λ y, y ≠ jid j) (qlist (fw (sw s)) Running)) ∧
    (¬ removed → qlist (fw (sw r.1)) Running = qlist (fw (sw s)) Running).
  Proof.
    intros n r removed Ha Hi Ho Ht Hr Hu.
    assert (∀ (j0 : job M) st t o, o = Some (norm_job (Job (set_complete_at (set_jstatus (ctx j0) st) t) (data j0))) →
      ∃ j' t, o = Some j' ∧ read_back (Job (set_complete_at (set_jstatus (ctx j0) st) t) (data j0)) j') as Hend.
    { intros j0 st t o ->. eexists _, _. split; [done|]. apply (read_back_norm (Job _ _)). }
    subst r removed n. unfold sys_step. rewrite Ha. unfold commit. cbn [ev_prog].
    rewrite Hi. destruct (sw s) as [w n] eqn:Ew. cbn [ops fw].
    unfold task_step. cbn [t_phase t_orig t_job]. rewrite !run_bind. unfold task_tail. rewrite run_bind.
    unfold execute_tail, execute_finish, next_tick, get_now. rewrite Hr. cbn [bind do]. rewrite run_f_now.
    rewrite Ht. cbn [bind do]. rewrite Hu, run_f_finish.
    assert (Hq : ∀ w s m, qlist (w_send w m) s = qlist w s) by done.
    assert (Hs : ∀ w k m, stored (w_send w m) k = stored w k) by done.
    assert (Hqt : ∀ w s, qlist (w_tick w) s = qlist w s) by done.
    assert (Hst : ∀ w k, stored (w_tick w) k = stored w k) by done.
    assert (fid : ∀ t, jid (fin j t) = jid j) by done.
    assert (aid : ∀ t, jid (fai orig t) = jid j) by done.
    destruct (ok_of (faults (S n))) eqn:E1.
    - destruct (faults (S n)) eqn:F1; try done. cbn -[qlist stored wr].
      rewrite s_wr_push, Hs, s_wr_put by done. rewrite q_wr_push, Hq, q_wr_put, Hqt, q_wr_rem, Hqt by done.
      split; [done|]. split; [done|]. split; [by eapply Hend|].
      destruct (faults n); cbn [flt]; (split; [intros [?|[? _]]|intros Hn]); try done;
        exfalso; apply Hn; by left.
    - rewrite run_bind, run_f_fail. destruct (ok_of (faults (S (S n)))) eqn:E2.
      + destruct (faults (S (S n))) eqn:F2; try done. cbn -[qlist stored wr].
        rewrite s_wr_push, s_wr_rem, Hs, s_wr_put by done.
        rewrite q_wr_push, q_wr_rem, Hq, q_wr_put, Hqt, q_wr_put, Hqt, q_wr_rem, Hqt by done.
        rewrite Ho, flt_flt. split; [done|]. split; [done|]. split; [by destruct (faults (S n)); try done; eapply Hend|].
        assert (faults (S n) ≠ FOk) as H1 by (by destruct (faults (S n))).
        destruct (faults n), (faults (S (S (S n)))); cbn [flt];
          (split; [intros [?|(? & ? & ?)]|intros Hn]); try done; exfalso; apply Hn; (by left) || (by right).
      + cbn -[qlist stored wr]. rewrite s_wr_put by done. rewrite Hst, s_wr_put by done.
        rewrite Hst, s_wr_rem, Hst. rewrite q_wr_put, Hqt, q_wr_put, Hqt, q_wr_rem, Hqt by done.
        split; [done|]. split; [done|].
        split; [by destruct (faults (S n)), (faults (S (S n))); try done; eapply Hend|].
        destruct (faults n); cbn [flt];
          (split; [intros [?|(? & Hf & ?)]|intros Hn]); try done.
        all: try (exfalso; apply Hn; by left). all: by rewrite Hf in E2.
  Qed.

  (** *** Slots that no task will free *)
  Notation sys := (Sys.sys world M).
  Notation step := (sys_step prof sched name (mem_h clock)).
  Notation go := (sys_run prof sched name (mem_h clock)).
  Lemma full_step L (s : sys) e :
    calm e → below L e → alive s = true → tasks s = [] → (max_processing_jobs (cfg s) <= L)%nat →
    (L <= length (qlist (sw s) Running))%nat →
    let s' := (step s e).1 in
    alive s' = true ∧ tasks s' = [] ∧ runs s' = runs s ∧ (max_processing_jobs (cfg s') <= L)%nat ∧
    qlist (sw s') Running = qlist (sw s) Running.
  Proof.
    intros Hc Hb Ha Ht Hm Hl. destruct e as [j ec|k|k|k|c'| |i u| | |e' n|]; try done.
    - rewrite step_enqueue by done. cbn -[Spec.qlist]. split; [done|]. split; [done|]. split; [done|]. split; [done|].
      unfold do_run. destruct (Spec.stored _ _) as [ex|].
      + cbv zeta. assert (∀ b : bool, qlist (if b then w_put (sw s) j else sw s) Running = qlist (sw s) Running) as Hp.
        { intros []; by rewrite ?qlist_put. }
        destruct (_ && is_done ex); [rewrite qlist_do_enqueue, bool_decide_false by done|]; apply Hp.
      + by rewrite qlist_do_enqueue, bool_decide_false.
    - rewrite step_cancel by done. cbn -[Spec.qlist]. split; [done|]. split; [done|]. split; [done|]. split; [done|].
      unfold do_cancel. destruct (Spec.stored _ _) as [ex|]; [|done]. destruct (is_queued ex); [|done].
      rewrite qlist_rem, bool_decide_false by done. by rewrite qlist_save, qlist_tick.
    - rewrite step_get. done.
    - rewrite step_retry by done. cbn -[Spec.qlist]. split; [done|]. split; [done|]. split; [done|]. split; [done|].
      unfold do_retry. destruct (Spec.stored _ _) as [ex|]; [|done]. destruct (is_done ex) eqn:Ed; [|done].
      rewrite qlist_do_re_enqueue. cbv zeta. rewrite !bool_decide_false; [done| |done].
      unfold is_done in Ed. by destruct (jstatus (ctx ex)).
    - rewrite step_config by done. done.
    - unfold sys_step. rewrite Ha. unfold commit. cbn [ev_prog]. rewrite run_bind, process_full by lia.
      cbn. rewrite app_nil_r. done.
    - unfold sys_step. rewrite Ha. unfold commit. cbn [ev_prog]. rewrite Ht, lookup_nil. cbn. by rewrite app_nil_r.
  Qed.
  Lemma full_forever L (s : sys) es :
    alive s = true → tasks s = [] → (max_processing_jobs (cfg s) <= L)%nat →
    (L <= length (qlist (sw s) Running))%nat → Forall calm es → Forall (below L) es →
    let s' := go s es in
    alive s' = true ∧ tasks s' = [] ∧ runs s' = runs s ∧ qlist (sw s') Running = qlist (sw s) Running.
  Proof.
    revert s. induction es as [|e es IH]; intros s Ha Ht Hm Hl Hc Hb; [done|].
    apply Forall_cons_1 in Hc as [Hc1 Hc]. apply Forall_cons_1 in Hb as [Hb1 Hb].
    destruct (full_step L s e Hc1 Hb1 Ha Ht Hm Hl) as (H1&H2&H3&H4&H5).
    destruct (IH (step s e).1 H1 H2 H4) as (H6&H7&H8&H9); [by rewrite H5|done|done|].
    cbv zeta. change (go s (e :: es)) with (go (step s e).1 es). rewrite H8, H9. done.
  Qed.
End cases.
