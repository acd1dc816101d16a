(** What the handlers of the work queue do to an in-memory world, as equations. *)
From Verif Require Import Spec JsonFacts BackendFacts.

Lemma run_bind {W A B} (h : handler W) (p : prog A) (f : A → prog B) w :
  run h (bind p f) w =
  match run h p w with
  | (w', Done a) => run h (f a) w'
  | (w', Panicked) => (w', Panicked)
  | (w', Diverged) => (w', Diverged)
  end.
Proof.
  revert w; induction p as [a| | |X e k IH]; intros w; cbn; try done.
  destruct (h X e w). apply IH.
Qed.

Section world.
  Context {M : Type} `{SM : Serde M}.
  Context (prof : profile).
  Context (sched : string → option (time → option time)).
  Context (name : string).
  Context (clock : nat → time).
  Notation qname := (format_queue_name name).
  Notation h := (mem_h clock).
  Notation qlist := (qlist name).
  Notation stored := (@stored M SM).

  (** Elementary changes of the world. *)
  Definition w_push (w : world) (s : status) (id : string) : world :=
    set_st w (mem_push (st w) (qname s) id).
  Definition w_rem (w : world) (s : status) (id : string) : world :=
    set_st w (mem_remove (st w) (qname s) id).
  Definition w_put (w : world) (j : job M) : world :=
    set_st w (mem_upsert (st w) STORAGE_HASH (jid j) (enc_job j)).
  Definition w_tick (w : world) : world := World (st w) (S (reads w)) (log w).
  Definition w_send (w : world) (m : msg) : world := World (st w) (reads w) (log w ++ [m]).
  Definition w_move (w : world) (s s' : status) : world :=
    set_st w (fst (mem_move (st w) (qname s) (qname s') 1 Back Front)).
  Definition w_save (w : world) (j : job M) : world :=
    w_send (w_put w j) (ChangeStatus (jid j) (jstatus (ctx j))).
  Definition now_ms (w : world) : Z := ms_of (clock (reads w)).

  (** What the five status changes do to a job. *)
  Definition enq (j : job M) (t : Z) := set_ctx j (set_enqueue_at (set_jstatus (ctx j) Queued) t).
  Definition prc (j : job M) (t : Z) := set_ctx j (set_run_at (set_jstatus (ctx j) Running) t).
  Definition fin (j : job M) (t : Z) := set_ctx j (set_complete_at (set_jstatus (ctx j) Finished) t).
  Definition can (j : job M) (t : Z) := set_ctx j (set_cancel_at (set_jstatus (ctx j) Canceled) t).
  Definition fai (j : job M) (t : Z) := set_ctx j (set_complete_at (set_jstatus (ctx j) Failed) t).

  Lemma qname_eqb s s' : String.eqb (qname s) (qname s') = bool_decide (s = s').
  Proof.
    destruct (bool_decide_reflect (s = s')) as [->|Hne]; [apply String.eqb_refl|].
    apply String.eqb_neq. intros H. by apply queue_key_inj in H as [_ ?].
  Qed.

  (** *** Observations after elementary changes *)
  Lemma qlist_ql w s : qlist w s = ql (st w) (qname s).
  Proof. done. Qed.

  Lemma qlist_push w s id s' :
    qlist (w_push w s id) s' = if bool_decide (s' = s) then id :: qlist w s else qlist w s'.
  Proof. rewrite !qlist_ql. cbn. rewrite mem_push_ql. unfold upd. by rewrite qname_eqb. Qed.
  Lemma qlist_rem w s id s' :
    qlist (w_rem w s id) s' =
    if bool_decide (s' = s) then filter (λ y, y ≠ id) (qlist w s) else qlist w s'.
  Proof. rewrite !qlist_ql. cbn. rewrite mem_remove_ql. unfold upd. by rewrite qname_eqb. Qed.
  Lemma qlist_put w j s : qlist (w_put w j) s = qlist w s.
  Proof. rewrite !qlist_ql. unfold ql. cbn. by rewrite mem_upsert_queues. Qed.
  Lemma qlist_tick w s : qlist (w_tick w) s = qlist w s.
  Proof. done. Qed.
  Lemma qlist_send w m s : qlist (w_send w m) s = qlist w s.
  Proof. done. Qed.
  Lemma qlist_save w j s : qlist (w_save w j) s = qlist w s.
  Proof. apply qlist_put. Qed.

  (** Moving the last waiting id to the front of the same or of another list. *)
  Lemma qlist_rotate w l id s :
    qlist w Queued = l ++ [id] →
    qlist (w_move w Queued Queued) s = if bool_decide (s = Queued) then id :: l else qlist w s.
  Proof.
    intros E. rewrite !qlist_ql in *. cbn.
    destruct (mem_move_ql (st w) (qname Queued) (qname Queued) 1 Back Front) as [_ ->].
    unfold upd. rewrite E. cbn [from_end]. rewrite rev_app_distr. cbn. rewrite drop_0, rev_involutive.
    rewrite !qname_eqb. by destruct (bool_decide (s = Queued)).
  Qed.
  Lemma qlist_pick w l id s :
    qlist w Queued = l ++ [id] →
    qlist (w_move w Queued Running) s =
      match s with Queued => l | Running => id :: qlist w Running | _ => qlist w s end.
  Proof.
    intros E. rewrite !qlist_ql in *. cbn.
    destruct (mem_move_ql (st w) (qname Queued) (qname Running) 1 Back Front) as [_ ->].
    unfold upd. rewrite E. cbn [from_end]. rewrite rev_app_distr. cbn. rewrite drop_0, rev_involutive.
    rewrite !qname_eqb. destruct s; done.
  Qed.

  Lemma stored_push w s id k : stored (w_push w s id) k = stored w k.
  Proof. unfold stored, mem_sget. cbn. by rewrite mem_push_storages. Qed.
  Lemma stored_rem w s id k : stored (w_rem w s id) k = stored w k.
  Proof. unfold stored, mem_sget. cbn. by rewrite mem_remove_storages. Qed.
  Lemma stored_move w s s' k : stored (w_move w s s') k = stored w k.
  Proof. unfold stored, mem_sget. cbn. by rewrite mem_move_storages. Qed.
  Lemma stored_tick w k : stored (w_tick w) k = stored w k.
  Proof. done. Qed.
  Lemma stored_send w m k : stored (w_send w m) k = stored w k.
  Proof. done. Qed.
  Lemma stored_put {SO : SerdeOk M} w j k :
    stored (w_put w j) k = if bool_decide (k = jid j) then Some (norm_job j) else stored w k.
  Proof.
    unfold stored. cbn. rewrite mem_upsert_sget. cbn [andb].
    destruct (String.eqb_spec k (jid j)) as [->|Hne].
    - destruct (enc_job_total j) as [v Hv]. rewrite Hv.
      rewrite bool_decide_true by done. cbn. by apply dec_enc_job.
    - rewrite bool_decide_false by done. rewrite String.eqb_refl. done.
  Qed.
  Lemma stored_save {SO : SerdeOk M} w j k :
    stored (w_save w j) k = if bool_decide (k = jid j) then Some (norm_job j) else stored w k.
  Proof. apply stored_put. Qed.

  (** *** Job status changes *)
  Lemma run_get id w : run h (get_from_storage id) w = (w, Done (Ok (stored w id))).
  Proof. done. Qed.
  Lemma run_job_enqueue j w :
    run h (job_enqueue j) w =
    (w_save (w_tick w) (enq j (now_ms w)), Done (Ok (enq j (now_ms w)))).
  Proof. done. Qed.
  Lemma run_job_process j w :
    run h (job_process j) w =
    (w_save (w_tick w) (prc j (now_ms w)), Done (Ok (prc j (now_ms w)))).
  Proof. done. Qed.

  (** *** Handlers *)
  Definition do_enqueue (w : world) (j : job M) : world :=
    w_save (w_tick (w_push w Queued (jid j))) (enq j (now_ms w)).
  Definition do_re_enqueue (w : world) (j : job M) : world :=
    w_push (w_save (w_tick (w_rem w (jstatus (ctx j)) (jid j))) (enq j (now_ms w))) Queued (jid j).

  Lemma run_enqueue j w : run h (enqueue name j) w = (do_enqueue w j, Done (Ok tt)).
  Proof. done. Qed.
  Lemma run_re_enqueue j w : run h (re_enqueue name j) w = (do_re_enqueue w j, Done (Ok tt)).
  Proof. done. Qed.

  Definition do_run (w : world) (j : job M) (c : enqueue_config) : world :=
    match stored w (jid j) with
    | None => do_enqueue w j
    | Some ex =>
        let w1 := if override_data c && negb (is_running ex) then w_put w j else w in
        if re_run c && is_done ex then do_enqueue w1 j else w1
    end.
  Lemma run_run_with_config j c w :
    run h (run_with_config name j c) w = (do_run w j c, Done (Ok tt)).
  Proof.
    unfold run_with_config, do_run. rewrite run_bind, run_get.
    destruct (stored w (jid j)) as [ex|]; [|apply run_enqueue].
    destruct (override_data c && negb (is_running ex)), (re_run c && is_done ex); done.
  Qed.

  Definition do_cancel (w : world) (id : string) : world :=
    match stored w id with
    | Some j => if is_queued j then w_rem (w_save (w_tick w) (can j (now_ms w))) Queued id else w
    | None => w
    end.
  Lemma run_cancel id w : run h (@cancel_job M SM name id) w = (do_cancel w id, Done (Ok tt)).
  Proof.
    unfold cancel_job, do_cancel. rewrite run_bind, run_get.
    destruct (stored w id) as [j|]; [|done]. destruct (is_queued j); done.
  Qed.

  Definition do_retry (w : world) (id : string) : world :=
    match stored w id with
    | Some j => if is_done j then do_re_enqueue w j else w
    | None => w
    end.
  Definition retry_answer (w : world) (id : string) : bool :=
    match stored w id with Some j => is_done j | None => false end.
  Lemma run_retry id w :
    run h (@retry_job M SM name id) w = (do_retry w id, Done (Ok (retry_answer w id))).
  Proof.
    unfold retry_job, do_retry, retry_answer. rewrite run_bind, run_get.
    destruct (stored w id) as [j|]; [|done]. destruct (is_done j); done.
  Qed.

  Definition do_finish (w : world) (j : job M) : world :=
    w_push (w_save (w_tick (w_rem w Running (jid j))) (fin j (now_ms w))) Finished (jid j).
  Definition do_fail (w : world) (j : job M) : world :=
    w_push (w_rem (w_save (w_tick w) (fai j (now_ms w))) Running (jid j)) Failed (jid j).
  Lemma run_finish j w : run h (mark_job_is_finished name j) w = (do_finish w j, Done (Ok tt)).
  Proof. done. Qed.
  Lemma run_fail j w : run h (mark_job_is_failed name j) w = (do_fail w j, Done (Ok tt)).
  Proof. done. Qed.

  (** *** End of an execution *)
  Inductive verdict := VRequeue (j : job M) | VFailed (j : job M) | VFinished (j : job M) | VPanic.

  Definition w_reads (w : world) (k : nat) : world := World (st w) k (log w).

  (** next_tick at the clock reading with index [k]: readings used, and the re-queued job. *)
  Definition tick_of (k : nat) (j : job M) : nat * option (option (job M)) :=
    match jtype (ctx j) with
    | Cron expression next_slot total_repeat cc =>
        match sched expression with
        | None => (S k, Some None)
        | Some after =>
            let over :=
              match max_repeat cc with Some m => m <? total_repeat | None => false end
              || match end_at cc with Some e => e <? clock k | None => false end in
            match after (clock (S k)) with
            | Some upcoming =>
                match i32_norm prof (total_repeat + 1) with
                | None => (S (S k), None)
                | Some n =>
                    (S (S k), Some (if over then None
                                    else Some (set_ctx j (set_jtype (ctx j) (Cron expression upcoming n cc)))))
                end
            | None => (S (S k), Some (if over then None else Some j))
            end
        end
    | _ => (S k, Some None)
    end.

  Lemma run_next_tick j w :
    run h (next_tick prof sched j) w =
    (w_reads w (fst (tick_of (reads w) j)),
     match snd (tick_of (reads w) j) with Some o => Done o | None => Panicked end).
  Proof.
    unfold next_tick, tick_of. cbn.
    destruct (jtype (ctx j)) as [|a|e n r cc]; try done.
    destruct (sched e) as [after|]; [|done]. cbn.
    destruct (after (clock (S (reads w)))) as [up|].
    - destruct (i32_norm prof (r + 1)) as [n'|]; [|done].
      destruct (max_repeat cc) as [m|]; [destruct (m <? r)|];
        (destruct (end_at cc) as [ea|]; [destruct (ea <? clock (reads w))|]); done.
    - destruct (max_repeat cc) as [m|]; [destruct (m <? r)|];
        (destruct (end_at cc) as [ea|]; [destruct (ea <? clock (reads w))|]); done.
  Qed.

  Definition finish_of (k : nat) (j : job M) (failed : bool) : nat * verdict :=
    (fst (tick_of k j),
     match snd (tick_of k j) with
     | None => VPanic
     | Some (Some nj) => VRequeue nj
     | Some None => if failed then VFailed j else VFinished j
     end).

  (** The retry decision: readings used, new retry state and time; [None] is a panic. *)
  Definition retry_of (k : nat) (r : retry) (i : retry_impl) : nat * option (retry * option time) :=
    match i with
    | DefaultRetryAt failed =>
        if failed && should_retry r
        then (S k, match retry_retry_at prof r (clock k) with
                   | Some (r', t) => Some (r', Some t) | None => None end)
        else (k, Some (r, None))
    | CustomRetryAt r' o => (k, Some (r', o))
    end.

  Definition with_retry (j : job M) (r : retry) : job M := set_ctx j (set_jretry (ctx j) (Some r)).
  Definition with_type (j : job M) (t : job_type) : job M := set_ctx j (set_jtype (ctx j) t).

  Definition judge (k : nat) (j : job M) (u : user_result M) : nat * verdict :=
    match jretry (ctx j) with
    | Some r =>
        match retry_of k r (ur_retry u) with
        | (k', Some (r', Some t)) => (k', VRequeue (with_type (with_retry j r') (ScheduledAt t)))
        | (k', Some (r', None)) => finish_of k' (with_retry j r') (ur_failed u)
        | (k', None) => (k', VPanic)
        end
    | None => finish_of k j (ur_failed u)
    end.

  Definition do_verdict (w : world) (v : verdict) : world :=
    match v with
    | VRequeue j => do_re_enqueue w j
    | VFailed j => do_fail w j
    | VFinished j => do_finish w j
    | VPanic => w
    end.
  Definition do_tail (w : world) (j : job M) (u : user_result M) : world :=
    do_verdict (w_reads w (fst (judge (reads w) j u))) (snd (judge (reads w) j u)).

  Lemma run_execute_finish j b w :
    run h (execute_finish prof sched name j b) w =
    (do_verdict (w_reads w (fst (finish_of (reads w) j b))) (snd (finish_of (reads w) j b)),
     match snd (finish_of (reads w) j b) with VPanic => Panicked | _ => Done (Ok tt) end).
  Proof.
    unfold execute_finish. rewrite run_bind, run_next_tick. unfold finish_of. cbn [fst snd].
    destruct (snd (tick_of (reads w) j)) as [[nj|]|]; [done| |done].
    destruct b; done.
  Qed.

  Lemma run_task_tail orig j u w :
    run h (task_tail prof sched name orig j u) w =
    (do_tail w j u,
     match snd (judge (reads w) j u) with VPanic => Panicked | _ => Done tt end).
  Proof.
    unfold task_tail, do_tail. rewrite run_bind.
    assert (run h (execute_tail prof sched name j u) w =
      (do_verdict (w_reads w (fst (judge (reads w) j u))) (snd (judge (reads w) j u)),
       match snd (judge (reads w) j u) with VPanic => Panicked | _ => Done (Ok tt) end)) as ->.
    { unfold execute_tail, judge. destruct (jretry (ctx j)) as [r|].
      - rewrite run_bind. unfold call_retry_at, retry_of.
        destruct (ur_retry u) as [b|r' [t|]].
        + destruct (b && should_retry r).
          * cbn [run bind]. rewrite run_bind. cbn.
            destruct (retry_retry_at prof r (clock (reads w))) as [[r' t]|]; cbn; [|done]. done.
          * cbn [run]. rewrite run_execute_finish. destruct w; done.
        + cbn [run]. rewrite run_re_enqueue. destruct w; done.
        + cbn [run]. rewrite run_execute_finish. destruct w; done.
      - rewrite run_execute_finish. done. }
    destruct (snd (judge (reads w) j u)); done.
  Qed.

  (** *** Picking *)
  Fixpoint scan_batch (total : nat) (ids : list string) (ready : list (job M)) (w : world)
      : world * list (job M) :=
    match ids with
    | [] => (w, ready)
    | id :: ids' =>
        match stored w id with
        | Some j =>
            let w1 := w_tick w in
            if is_ready j (clock (reads w)) && (length ready <? total)%nat
               && negb (existsb (λ rj, String.eqb (jid rj) (jid j)) ready)
            then
              let j' := prc j (now_ms w1) in
              scan_batch total ids' (ready ++ [j']) (w_move (w_save (w_tick w1) j') Queued Running)
            else scan_batch total ids' ready (w_move w1 Queued Queued)
        | None => scan_batch total ids' ready (w_move w Queued Queued)
        end
    end.

  Lemma run_move w s s' (k : result (list string) → prog (result (list (job M)))) A B :
    (∀ l, k (Ok l) = A) → run h A (w_move w s s') = B →
    run h (bind (do (QMove (qname s) (qname s') 1 Back Front)) k) w = B.
  Proof.
    intros Hk HA. cbn. unfold w_move in HA.
    destruct (mem_move (st w) (qname s) (qname s') 1 Back Front) as [x l]. cbn in *. by rewrite Hk.
  Qed.

  Lemma run_pick_batch total ids ready w :
    run h (pick_batch name total ids ready) w =
    (fst (scan_batch total ids ready w), Done (Ok (snd (scan_batch total ids ready w)))).
  Proof.
    revert ready w; induction ids as [|id ids IH]; intros ready w; [done|].
    cbn [pick_batch scan_batch]. rewrite run_bind, run_get.
    destruct (stored w id) as [j|].
    - rewrite run_bind. unfold get_now, do at 1. cbn [run]. 
      change (mem_h clock time Now w) with (w_tick w, clock (reads w)). cbn beta iota.
      destruct (_ && _ && _).
      + rewrite run_bind, run_job_process. cbn beta iota. eapply run_move; [done|]. apply IH.
      + eapply run_move; [done|]. apply IH.
    - eapply run_move; [done|]. apply IH.
  Qed.

  Fixpoint scan_loop (fuel : nat) (total : nat) (ready : list (job M)) (cursor : Z) (w : world)
      : world * list (job M) * outcome unit :=
    match fuel with
    | O => (w, ready, Diverged)
    | S fuel' =>
        let ids := take BATCH (rev (qlist w Queued)) in
        match i32_norm prof (cursor - Z.of_nat (length ids)) with
        | None => (w, ready, Panicked)
        | Some cursor' =>
            let (w', ready') := scan_batch total ids ready w in
            if (total <=? length ready')%nat then (w', ready', Done tt)
            else if cursor' <=? 0 then (w', ready', Done tt)
            else scan_loop fuel' total ready' cursor' w'
        end
    end.

  Definition with_ready {A} (r : world * A * outcome unit) : world * outcome (result A) :=
    (r.1.1, match r.2 with Done _ => Done (Ok r.1.2) | Panicked => Panicked | Diverged => Diverged end).

  Lemma run_pick_loop fuel total ready cursor w :
    run h (pick_loop prof name fuel total ready cursor) w =
    with_ready (scan_loop fuel total ready cursor w).
  Proof.
    revert ready cursor w; induction fuel as [|fuel IH]; intros ready cursor w; [done|].
    cbn [pick_loop scan_loop]. rewrite run_bind. unfold do at 1. cbn [run].
    change (mem_h clock (result (list string)) (QGet (qname Queued) BATCH Back) w)
      with (w, Ok (A := list string) (mem_get (st w) (qname Queued) BATCH Back)).
    cbn beta iota. rewrite mem_get_spec. cbn [from_end].
    change (ql (st w) (qname Queued)) with (qlist w Queued).
    destruct (i32_norm prof _) as [c'|]; [|done].
    rewrite run_bind, run_pick_batch.
    destruct (scan_batch total _ ready w) as [w' ready']. cbn [fst snd].
    destruct (total <=? length ready')%nat; [done|].
    destruct (c' <=? 0); [done|]. apply IH.
  Qed.

  Definition do_pick (max_jobs : nat) (w : world) : world * list (job M) * outcome unit :=
    let n := length (qlist w Running) in
    if (max_jobs <=? n)%nat then (w, [], Done tt)
    else scan_loop (S (length (qlist w Queued))) (max_jobs - n) []
           (wrap32 (Z.of_nat (length (qlist w Queued)))) w.

  Lemma run_pick max_jobs w :
    run h (pick_jobs_to_process prof name max_jobs) w = with_ready (do_pick max_jobs w).
  Proof.
    unfold pick_jobs_to_process, do_pick. rewrite run_bind. unfold do at 1. cbn [run].
    change (mem_h clock (result nat) (QCount (qname Running)) w)
      with (w, Ok (A := nat) (mem_count (st w) (qname Running))).
    cbn beta iota. rewrite mem_count_spec.
    change (ql (st w) (qname Running)) with (qlist w Running).
    destruct (max_jobs <=? _)%nat; [done|].
    unfold try_pick_specific_ready_jobs. rewrite run_bind. unfold do at 1. cbn [run].
    change (mem_h clock (result nat) (QCount (qname Queued)) w)
      with (w, Ok (A := nat) (mem_count (st w) (qname Queued))).
    cbn beta iota. rewrite mem_count_spec.
    change (ql (st w) (qname Queued)) with (qlist w Queued). apply run_pick_loop.
  Qed.
End world.
