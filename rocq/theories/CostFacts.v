(** The number of backend calls of a step. *)
From Verif Require Import SpecCost JsonFacts BackendFacts RedisFacts SubmitFacts WorldFacts MultiFacts PickFacts StrayCases.

Lemma cost_bind {W A B} (h : handler W) (p : prog A) (f : A → prog B) w :
  cost h (bind p f) w =
  (cost h p w + match run h p w with (w', Done a) => cost h (f a) w' | _ => 0 end)%nat.
Proof.
  revert w. induction p as [a| | |X e k IH]; intros w; cbn; try done.
  destruct (h X e w) as [w' x]. rewrite IH. lia.
Qed.
Lemma cost_ret {W A} (h : handler W) (a : A) w : cost h (Ret a) w = 0%nat.
Proof. done. Qed.

(** *** Steps other than a tick, on any backend *)
Section any.
  Context {M : Type} `{SM : Serde M}.
  Context (prof : profile).
  Context (sched : string → option (time → option time)).
  Context (name : string).
  Context {W : Type} (h : handler W).

  (** At most [n] calls, at most [m] when the answer is an error. *)
  Definition within {A} (n m : nat) (p : prog (result A)) : Prop :=
    ∀ w, (cost h p w <= n)%nat ∧
      match run h p w with (_, Done (Err _)) => (cost h p w <= m)%nat | _ => True end.

  Lemma cost_enqueue (j : job M) w : (cost h (enqueue name j) w <= 2)%nat.
  Proof.
    cbn. destruct (h _ _ w) as [w1 [[]|]]; cbn; [|lia].
    destruct (h _ _ w1) as [w2 t]. cbn. destruct (h _ _ w2) as [w3 [[]|]]; cbn; [|lia].
    destruct (h _ _ w3) as [w4 ?]; cbn. lia.
  Qed.
  Lemma cost_submit (j : job M) ec w : (cost h (run_with_config name j ec) w <= 4)%nat.
  Proof.
    unfold run_with_config, get_from_storage. cbn [bind do cost is_call]. destruct (h _ _ w) as [w1 r].
    destruct (match match r with Ok o => o | Err _ => None end with Some (Some js) => dec_job js | _ => None end)
      as [ex|]; [|pose proof (cost_enqueue j w1); lia].
    rewrite cost_bind.
    assert (∀ w, cost h (if override_data ec && negb (is_running ex)
                          then upsert_to_storage (jid j) j else Ret (Ok tt)) w <= 1)%nat as H1.
    { intros w'. destruct (_ && _); cbn; [|lia]. by destruct (h _ _ w') as [? ?]. }
    specialize (H1 w1). destruct (run _ _ _) as [w2 [[[]|]| |]]; try (cbn; lia).
    revert H1. generalize (cost h (if override_data ec && negb (is_running ex)
      then upsert_to_storage (jid j) j else Ret (Ok tt)) w1). intros x H1.
    destruct (_ && _); [|cbn; lia]. rewrite cost_bind. pose proof (cost_enqueue j w2).
    destruct (run _ _ _) as [w3 [[[]|]| |]]; cbn [cost]; lia.
  Qed.
  Lemma cost_cancel id w : (cost h (cancel_job (M := M) name id) w <= 3)%nat.
  Proof.
    cbn. destruct (h _ _ w) as [w1 r]; cbn.
    destruct (match match r with Ok o => o | Err _ => None end with Some (Some js) => dec_job js | _ => None end)
      as [ex|]; [|cbn; lia].
    destruct (is_queued ex); cbn; [|lia].
    destruct (h _ _ w1) as [w2 t]. cbn. destruct (h _ _ w2) as [w3 [[]|]]; cbn; [|lia].
    destruct (h _ _ w3) as [w4 ?]; cbn. destruct (h _ _ w4) as [w5 [[]|]]; cbn; lia.
  Qed.
  Lemma re_enqueue_within (j : job M) : within 3 2 (re_enqueue name j).
  Proof.
    intros w. cbn. destruct (h _ _ w) as [w1 [[]|]]; cbn; [|lia].
    destruct (h _ _ w1) as [w2 t]. cbn. destruct (h _ _ w2) as [w3 [[]|]]; cbn; [|lia].
    destruct (h _ _ w3) as [w4 ?]; cbn. destruct (h _ _ w4) as [w5 ?]; cbn. split; [lia|done].
  Qed.
  Lemma finished_within (j : job M) : within 3 2 (mark_job_is_finished name j).
  Proof.
    intros w. cbn. destruct (h _ _ w) as [w1 ?]; cbn.
    destruct (h _ _ w1) as [w2 t]. cbn. destruct (h _ _ w2) as [w3 [[]|]]; cbn; [|lia].
    destruct (h _ _ w3) as [w4 ?]; cbn. destruct (h _ _ w4) as [w5 ?]; cbn. split; [lia|done].
  Qed.
  Lemma failed_within (j : job M) : within 3 1 (mark_job_is_failed name j).
  Proof.
    intros w. cbn. destruct (h _ _ w) as [w1 t]; cbn.
    destruct (h _ _ w1) as [w2 [[]|]]. 2:{ cbn. lia. }
    cbn. destruct (h _ _ w2) as [w3 ?]; cbn.
    destruct (h _ _ w3) as [w4 ?]; cbn. destruct (h _ _ w4) as [w5 ?]; cbn. split; [lia|done].
  Qed.
  Lemma within_mono {A} n m m' (p : prog (result A)) : (m <= m')%nat → within n m p → within n m' p.
  Proof.
    intros Hm Hp w. destruct (Hp w) as [H1 H2]. split; [done|].
    destruct (run h p w) as [? [[]| |]]; try done. lia.
  Qed.
  Lemma cost_retry id w : (cost h (retry_job (M := M) name id) w <= 4)%nat.
  Proof.
    unfold retry_job, get_from_storage. cbn [bind do cost is_call]. destruct (h _ _ w) as [w1 r].
    destruct (match match r with Ok o => o | Err _ => None end with Some (Some js) => dec_job js | _ => None end)
      as [ex|]; [|cbn; lia].
    destruct (is_done ex); [|cbn; lia]. rewrite cost_bind. destruct (re_enqueue_within ex w1) as [H1 _].
    destruct (run _ _ _) as [w2 [[[]|]| |]]; cbn [cost]; lia.
  Qed.
  (** A program that makes no calls. *)
  Definition free {A} (p : prog A) : Prop := ∀ w, cost h p w = 0%nat.
  Lemma within_bind {A B} n m (p : prog A) (f : A → prog (result B)) :
    free p → (∀ a, within n m (f a)) → within n m (bind p f).
  Proof.
    intros Hp Hf w. rewrite cost_bind, run_bind', (Hp w).
    destruct (run h p w) as [w1 [a| |]]; cbn; [apply Hf|lia|lia].
  Qed.
  Lemma next_tick_free (j : job M) : free (next_tick prof sched j).
  Proof.
    intros w. cbn. destruct (h _ _ w) as [w1 t]; cbn. destruct (jtype (ctx j)); try done.
    destruct (sched _) as [after|]; [|done]. cbn. destruct (h _ _ w1) as [w2 t2]; cbn.
    destruct (after t2); [destruct (i32_norm _ _); [|done]|];
      (destruct (match max_repeat _ with Some _ => _ | None => _ end); [done|]);
      (destruct (match end_at _ with Some _ => _ | None => _ end); done).
  Qed.
  Lemma call_retry_free r i : free (call_retry_at prof r i).
  Proof.
    intros w. destruct i as [f|r' o]; [|done]. cbn [call_retry_at]. destruct (_ && _); [|done].
    cbn. destruct (h _ _ w) as [w1 t]; cbn. by destruct (retry_retry_at _ _ _) as [[]|].
  Qed.
  Lemma finish_within (j : job M) f : within 3 2 (execute_finish prof sched name j f).
  Proof.
    apply within_bind; [apply next_tick_free|]. intros [nj|]; [apply re_enqueue_within|].
    destruct f; [apply (within_mono 3 1); [lia|apply failed_within]|apply finished_within].
  Qed.
  Lemma tail_within (j : job M) u : within 3 2 (execute_tail prof sched name j u).
  Proof.
    unfold execute_tail. destruct (jretry (ctx j)) as [r|]; [|apply finish_within].
    apply within_bind; [apply call_retry_free|]. intros [r' [t|]]; [apply re_enqueue_within|apply finish_within].
  Qed.
  Lemma cost_task (t : task M) u w : (cost h (task_step prof sched name t u) w <= 5)%nat.
  Proof.
    unfold task_step. destruct (t_phase t).
    - destruct (is_cancelled _); cbn; destruct (h _ _ w) as [w1 ?]; cbn; lia.
    - cbn. lia.
    - cbn. destruct (h _ _ w) as [w1 ?]; cbn. lia.
    - unfold task_tail. rewrite cost_bind, cost_bind, run_bind'.
      destruct (tail_within (t_job t) u w) as [H1 H2].
      destruct (run h (execute_tail _ _ _ _ _) w) as [w1 [[?|]| |]]; [cbn; lia| |cbn; lia|cbn; lia].
      rewrite cost_bind. destruct (failed_within (t_orig t) w1) as [H3 _]. rewrite run_bind'.
      destruct (run h (mark_job_is_failed _ _) w1) as [w2 [?| |]]; cbn [cost run]; lia.
  Qed.
  Lemma other_cost c ts (e : event M) w :
    e ≠ EvTick → e ≠ EvStart → (cost h (ev_prog prof sched name c ts e) w <= most_calls e)%nat.
  Proof.
    intros He1 He2. destruct e as [j ec|id|id|id|c'| |i u| | |e n|]; cbn [ev_prog most_calls]; try done.
    - rewrite cost_bind. pose proof (cost_submit j ec w).
      destruct (run _ _ _) as [w2 [?| |]]; cbn [cost]; lia.
    - rewrite cost_bind. pose proof (cost_cancel id w).
      destruct (run _ _ _) as [w2 [?| |]]; cbn [cost]; lia.
    - cbn. by destruct (h _ _ w) as [w1 r]; cbn.
    - rewrite cost_bind. pose proof (cost_retry id w).
      destruct (run _ _ _) as [w2 [?| |]]; cbn [cost]; lia.
    - destruct (ts !! i) as [t|]; [|cbn; lia]. rewrite cost_bind. pose proof (cost_task t u w).
      destruct (run _ _ _) as [w2 [[]| |]]; cbn [cost]; lia.
  Qed.
End any.

(** *** A tick, in memory *)
Section tick.
  Context {M : Type} `{SM : Serde M}.
  Context (prof : profile).
  Context (sched : string → option (time → option time)).
  Context (name : string).
  Context (clock : nat → time).
  Notation h := (mem_h clock).
  Notation ql w s := (qlist name w s).
  Notation len w := (length (ql w Queued)).

  Lemma rotate_len w :
    len (set_st w (mem_move (st w) (format_queue_name name Queued) (format_queue_name name Queued) 1 Back Front).1)
    = len w.
  Proof.
    destruct (mem_move_ql (st w) (format_queue_name name Queued) (format_queue_name name Queued) 1 Back Front) as [_ H].
    specialize (H (format_queue_name name Queued)). unfold qlist, BackendFacts.ql in *. cbn [st set_st]. rewrite H.
    cbv zeta. unfold upd. rewrite !String.eqb_refl. cbn [put_end from_end].
    repeat rewrite ?app_length, ?rev_length, ?drop_length, ?take_length. lia.
  Qed.
  Lemma take_len w :
    (len w <= S (len (set_st w (mem_move (st w) (format_queue_name name Queued) (format_queue_name name Running) 1 Back Front).1)))%nat.
  Proof.
    destruct (mem_move_ql (st w) (format_queue_name name Queued) (format_queue_name name Running) 1 Back Front) as [_ H].
    specialize (H (format_queue_name name Queued)). unfold qlist, BackendFacts.ql in *. cbn [st set_st]. rewrite H.
    cbv zeta. unfold upd.
    destruct (String.eqb_spec (format_queue_name name Queued) (format_queue_name name Running)) as [E|_].
    { by apply queue_key_inj in E as [_ ?]. }
    rewrite String.eqb_refl. cbn [put_end from_end].
    rewrite rev_length, drop_length, rev_length. lia.
  Qed.

  Lemma batch_cost total ids (ready : list (job M)) w :
    ∃ w' ready', run h (pick_batch name total ids ready) w = (w', Done (Ok ready')) ∧
      (length ready <= length ready' <= length ready + length ids)%nat ∧ (length ready' <= Nat.max total (length ready))%nat ∧
      (len w + length ready <= len w' + length ready')%nat ∧
      (cost h (pick_batch name total ids ready) w + length ready = 2 * length ids + length ready')%nat.
  Proof.
    revert ready w. induction ids as [|id ids IH]; intros ready w.
    { exists w, ready. cbn. split; [done|]. lia. }
    cbn [pick_batch]. cbn [get_from_storage bind do run cost is_call mem_h].
    assert (∀ w : world, len w = len w →
      ∃ w' ready', run h (bind (do (QMove (format_queue_name name Queued) (format_queue_name name Queued) 1 Back Front))
         (λ r, match r with Ok _ => pick_batch name total ids ready | Err e => Ret (Err e) end)) w = (w', Done (Ok ready')) ∧
      (length ready <= length ready' <= length ready + length ids)%nat ∧ (length ready' <= Nat.max total (length ready))%nat ∧
      (len w + length ready <= len w' + length ready')%nat ∧
      (cost h (bind (do (QMove (format_queue_name name Queued) (format_queue_name name Queued) 1 Back Front))
         (λ r, match r with Ok _ => pick_batch name total ids ready | Err e => Ret (Err e) end)) w + length ready
       = 1 + 2 * length ids + length ready')%nat) as Hrot.
    { intros w0 _. cbn [bind do run cost is_call mem_h].
      pose proof (rotate_len w0) as Hl. destruct (mem_move _ _ _ _ _ _) as [s l]. cbn [fst] in Hl.
      destruct (IH ready (set_st w0 s)) as (w' & ready' & Hr & H1 & H2 & H3 & H4).
      exists w', ready'. split; [done|]. split; [done|]. split; [done|]. split; [lia|]. lia. }
    destruct (match mem_sget (st w) STORAGE_HASH id with Some (Some js) => dec_job js | _ => None end) as [j|].
    2:{ destruct (Hrot w eq_refl) as (w' & ready' & Hr & H1 & H2 & H3 & H4).
        exists w', ready'. split; [exact Hr|]. cbn [length]. split; [lia|]. split; [done|]. split; [done|].
        cbn [bind do cost is_call] in H4 |- *. lia. }
    cbn [get_now bind do run cost is_call mem_h].
    destruct (_ && _ && _) eqn:Hc.
    2:{ destruct (Hrot (World (st w) (S (reads w)) (log w)) eq_refl) as (w' & ready' & Hr & H1 & H2 & H3 & H4).
        exists w', ready'. split; [exact Hr|]. cbn [length]. split; [lia|]. split; [done|]. split; [done|].
        cbn [bind do cost is_call] in H4 |- *. lia. }
    apply andb_prop in Hc as [Hc _]. apply andb_prop in Hc as [_ Hc]. apply Nat.ltb_lt in Hc.
    cbn [job_process save_and_notify upsert_to_storage get_now_as_ms get_now bind do run cost is_call mem_h st set_st reads log].
    match goal with |- context [let (_, _) := (let (_, _) := mem_move ?s _ _ _ _ _ in (set_st ?w0 _, _)) in _] =>
      pose proof (take_len w0) as Hl;
      assert (len w0 = len w) as Hw0 by (unfold qlist; cbn [st set_st]; by rewrite mem_upsert_queues);
      cbn [st set_st] in Hl; destruct (mem_move s _ _ _ _ _) as [s' l] end.
    cbn [fst] in Hl.
    match goal with |- context [run h (pick_batch name total ids ?r) ?w0] =>
      destruct (IH r w0) as (w' & ready' & Hr & H1 & H2 & H3 & H4) end.
    rewrite app_length in *. cbn [length] in *.
    exists w', ready'. split; [exact Hr|]. split; [lia|]. split; [lia|]. split; [lia|]. lia.
  Qed.

  Lemma loop_cost fuel total (ready : list (job M)) c w :
    (c < fuel)%nat → (0 < c ∧ c <= len w ∨ c = 0 ∧ len w = 0)%nat → Z.of_nat c <= i32_max →
    (length ready < total)%nat →
    ∃ w' ready' B L, run h (pick_loop prof name fuel total ready (Z.of_nat c)) w = (w', Done (Ok ready')) ∧
      (length ready <= length ready' <= total)%nat ∧
      (cost h (pick_loop prof name fuel total ready (Z.of_nat c)) w + length ready = B + 2 * L + length ready')%nat ∧
      (1 <= B)%nat ∧ (20 * B <= c + 20)%nat ∧ (L < c + 20)%nat ∧ (L <= 20 * B)%nat ∧
      ((length ready' < total)%nat → (c <= L)%nat).
  Proof.
    revert ready c w. induction fuel as [|fuel IH]; intros ready c w Hfu Hc Hm Hrt; [lia|].
    cbn [pick_loop bind do run cost is_call mem_h]. rewrite mem_get_spec. cbn [from_end].
    set (ids := take BATCH (rev (BackendFacts.ql (st w) (format_queue_name name Queued)))).
    assert (length ids = Nat.min 20 (len w)) as Hids.
    { unfold ids. rewrite take_length, rev_length. done. }
    rewrite norm_in by (unfold i32_min, i32_max in *; lia).
    destruct (batch_cost total ids ready w) as (w1 & ready1 & Hr & H1 & H2 & H3 & H4).
    rewrite run_bind', cost_bind, Hr.
    destruct (Nat.leb_spec total (length ready1)) as [Hle|Hgt].
    { exists w1, ready1, 1%nat, (length ids). split; [done|]. cbn [cost]. split_and!; lia. }
    destruct (Z.leb_spec (Z.of_nat c - Z.of_nat (length ids)) 0) as [Hle|Hgt2].
    { exists w1, ready1, 1%nat, (length ids). split; [done|]. cbn [cost]. split_and!; lia. }
    assert (length ids = 20)%nat as H20 by lia.
    replace (Z.of_nat c - Z.of_nat (length ids)) with (Z.of_nat (c - 20)) by lia.
    destruct (IH ready1 (c - 20)%nat w1 ltac:(lia) ltac:(lia) ltac:(lia) ltac:(lia))
      as (w2 & ready2 & B & L & Hr2 & G1 & G2 & G0 & G3 & G4 & G5 & G6).
    exists w2, ready2, (S B), (20 + L)%nat. split; [done|]. split_and!; try lia.
  Qed.

  (** A tick with the configuration [c]. *)
  Lemma process_cost c (ts : list (task M)) w :
    Z.of_nat (len w) <= i32_max →
    let free := (max_processing_jobs c - length (ql w Running))%nat in
    ∃ w' js, run h (process_jobs prof name c ts) w = (w', Done (ts ++ map (λ j, Task j j Spawned) js)) ∧
      (length js <= free)%nat ∧
      (free = 0%nat → cost h (process_jobs prof name c ts) w = 1%nat) ∧
      ((0 < free)%nat → ∃ B L, cost h (process_jobs prof name c ts) w = (2 + B + 2 * L + length js)%nat ∧
        (1 <= B)%nat ∧ (20 * B <= len w + 20)%nat ∧ (L < len w + 20)%nat ∧ (L <= 20 * B)%nat ∧
        ((length js < free)%nat → (len w <= L)%nat)).
  Proof.
    intros Hm free. unfold process_jobs. rewrite run_bind', cost_bind.
    unfold pick_jobs_to_process. cbn [bind do run cost is_call mem_h].
    rewrite mem_count_spec. change (BackendFacts.ql (st w) (format_queue_name name Running)) with (ql w Running).
    destruct (Nat.leb_spec (max_processing_jobs c) (length (ql w Running))) as [Hle|Hgt].
    { exists w, []. cbn [run cost map length]. split; [by rewrite app_nil_r|]. split; [lia|]. split; [done|]. unfold free. lia. }
    unfold try_pick_specific_ready_jobs. cbn [bind do run cost is_call mem_h].
    rewrite mem_count_spec. change (BackendFacts.ql (st w) (format_queue_name name Queued)) with (ql w Queued).
    rewrite wrap32_id by (split; [lia|done]).
    destruct (loop_cost (S (len w)) (max_processing_jobs c - length (ql w Running)) [] (len w) w)
      as (w' & js & B & L & Hr & G1 & G2 & G0 & G3 & G4 & G5 & G6); [lia|lia|done|cbn; lia|].
    rewrite Hr. cbn [length] in *. exists w', js. split; [done|]. unfold free. split; [lia|]. split; [lia|].
    intros _. exists B, L. split; [cbn [cost]; lia|]. auto.
  Qed.

  Lemma tick_cost c (ts : list (task M)) w :
    Z.of_nat (len w) <= i32_max →
    let p := ev_prog prof sched name c ts EvTick in
    let free := (max_processing_jobs c - length (ql w Running))%nat in
    ∃ w' js, run h p w = (w', Done (c, ts ++ map (λ j, Task j j Spawned) js, [], RNone)) ∧
      (length js <= free)%nat ∧
      (free = 0%nat → cost h p w = 1%nat) ∧
      ((0 < free)%nat → ∃ B L, cost h p w = (2 + B + 2 * L + length js)%nat ∧
        (1 <= B)%nat ∧ (20 * B <= len w + 20)%nat ∧ (L < len w + 20)%nat ∧ (L <= 20 * B)%nat ∧
        ((length js < free)%nat → (len w <= L)%nat)).
  Proof.
    intros Hm p free. destruct (process_cost c ts w Hm) as (w' & js & Hr & G1 & G2 & G3).
    exists w', js. subst p. cbn [ev_prog]. rewrite run_bind', cost_bind, Hr. cbn [run cost].
    rewrite Nat.add_0_r. auto.
  Qed.
  Lemma start_cost c (ts : list (task M)) w :
    cost h (ev_prog prof sched name c ts EvStart) w =
    cost h (ev_prog prof sched name wq_config_default [] (@EvTick M)) w.
  Proof.
    cbn [ev_prog]. rewrite !cost_bind. by destruct (run _ _ _) as [? [?| |]].
  Qed.

  (** *** The same on Redis *)
  Lemma redis_cost lk (Hlk : ∀ q, Decision (lk q)) {A} (p : prog A) w r :
    portable lk p → redis_rel lk w r → cost (redis_h clock) p r = cost h p w.
  Proof.
    revert w r; induction p as [a| | |X e k IH]; intros w r Hp HR; cbn in *; try done.
    destruct Hp as [Hc Hk]. destruct (redis_sim lk Hlk clock X e w r Hc HR) as [Hx Hw].
    destruct (mem_h clock X e w), (redis_h clock X e r); cbn in *. subst. f_equal. by apply IH.
  Qed.
  Lemma redis_cost_history (es : list (event M)) e :
    let s := sys_run prof sched name h (sys_init world_empty) es in
    let r := sys_run prof sched name (redis_h clock) (sys_init rworld_empty) es in
    cost (redis_h clock) (ev_prog prof sched name (cfg r) (tasks r) e) (sw r) =
    cost h (ev_prog prof sched name (cfg s) (tasks s) e) (sw s).
  Proof.
    intros s r. destruct (responses_same (M := M) prof sched name clock (sys_init world_empty) (sys_init rworld_empty) es)
      as [_ (Hw & Hc & Ht & _)].
    { split; [apply redis_rel_empty|done]. }
    unfold s, r. rewrite <-Hc, <-Ht. eapply redis_cost; [apply (list_key_dec name)|apply port_event|exact Hw].
  Qed.
End tick.

(** *** Exact numbers in memory *)
Section exact.
  Context {M : Type} `{SM : Serde M} {SO : SerdeOk M}.
  Context (prof : profile).
  Context (sched : string → option (time → option time)).
  Context (name : string).
  Context (clock : nat → time).
  Notation h := (mem_h clock).
  Notation stored := (@stored M SM).

  Lemma sget_stored w id :
    (match match Ok (mem_sget (st w) STORAGE_HASH id) with Ok o => o | Err _ => None end with
     | Some (Some js) => dec_job js | _ => None end) = stored w id.
  Proof. done. Qed.
  Lemma mem_enqueue_cost (j : job M) w : cost h (enqueue name j) w = 2%nat.
  Proof. done. Qed.
  Lemma mem_re_enqueue_cost (j : job M) w : cost h (re_enqueue name j) w = 3%nat.
  Proof. done. Qed.
  Lemma mem_submit_cost c ts (j : job M) ec w :
    cost h (ev_prog prof sched name c ts (EvEnqueue j ec)) w =
    match stored w (jid j) with
    | None => 3%nat
    | Some ex => (1 + (if override_data ec && negb (is_running ex) then 1 else 0)
                    + if re_run ec && is_done ex then 2 else 0)%nat
    end.
  Proof.
    cbn [ev_prog]. rewrite cost_bind. unfold run_with_config, get_from_storage.
    cbn [bind do cost is_call run mem_h]. rewrite sget_stored.
    destruct (stored w (jid j)) as [ex|]; [|done].
    destruct (override_data ec), (is_running ex), (re_run ec), (is_done ex); reflexivity.
  Qed.
  Lemma mem_cancel_cost c ts id w :
    cost h (ev_prog prof sched name c ts (@EvCancel M id)) w =
    match stored w id with Some j => if is_queued j then 3%nat else 1%nat | None => 1%nat end.
  Proof.
    cbn [ev_prog]. rewrite cost_bind. unfold cancel_job, get_from_storage.
    cbn [bind do cost is_call run mem_h]. rewrite sget_stored.
    destruct (stored w id) as [j|]; [|done]. destruct (is_queued j); reflexivity.
  Qed.
  Lemma mem_retry_cost c ts id w :
    cost h (ev_prog prof sched name c ts (@EvRetry M id)) w =
    match stored w id with Some j => if is_done j then 4%nat else 1%nat | None => 1%nat end.
  Proof.
    cbn [ev_prog]. rewrite cost_bind. unfold retry_job, get_from_storage.
    cbn [bind do cost is_call run mem_h]. rewrite sget_stored.
    destruct (stored w id) as [j|]; [|done]. destruct (is_done j); reflexivity.
  Qed.
  Lemma mem_finish_cost (j : job M) b w :
    (∃ w' r, run h (execute_finish prof sched name j b) w = (w', Done (Ok r))) →
    cost h (execute_finish prof sched name j b) w = 3%nat.
  Proof.
    unfold execute_finish. intros (w' & r & Hr). rewrite run_bind' in Hr. rewrite cost_bind, next_tick_free.
    destruct (run h (next_tick prof sched j) w) as [w1 [[nj|]| |]]; try done.
    by destruct b.
  Qed.
  Lemma mem_ok_tail (j : job M) u w :
    (∃ w' r, run h (execute_tail prof sched name j u) w = (w', Done r)) →
    ∃ w' r, run h (execute_tail prof sched name j u) w = (w', Done (Ok r)).
  Proof.
    assert (∀ j b w, (∃ w' r, run h (execute_finish prof sched name j b) w = (w', Done r)) →
      ∃ w' r, run h (execute_finish prof sched name j b) w = (w', Done (Ok r))) as Hf.
    { intros j' b w0 (w' & r & Hr). unfold execute_finish in *. rewrite run_bind' in *.
      destruct (run h (next_tick prof sched j') w0) as [w1 [[nj|]| |]]; [by eexists _, _| |done..].
      destruct b; by eexists _, _. }
    unfold execute_tail. destruct (jretry (ctx j)) as [r|]; [|apply Hf].
    rewrite !run_bind'. intros (w' & r' & Hr). destruct (run h (call_retry_at _ _ _) w) as [w1 [[r1 [t|]]| |]]; [by eexists _, _| |done..].
    apply Hf. eauto.
  Qed.
  Lemma mem_tail_cost (j : job M) u w :
    (∃ w' r, run h (execute_tail prof sched name j u) w = (w', Done (Ok r))) →
    cost h (execute_tail prof sched name j u) w = 3%nat.
  Proof.
    unfold execute_tail. destruct (jretry (ctx j)) as [r|]; [|apply mem_finish_cost].
    intros (w' & r' & Hr). rewrite run_bind' in Hr. rewrite cost_bind, call_retry_free.
    destruct (run h (call_retry_at _ _ _) w) as [w1 [[r1 [t|]]| |]]; try done.
    apply mem_finish_cost. eauto.
  Qed.
  Lemma mem_end_cost (s : sys world M) i orig j u :
    alive s = true → tasks s !! i = Some (Task orig j AfterHook) →
    alive (sys_step prof sched name h s (EvTask i u)).1 = true →
    cost h (ev_prog prof sched name (cfg s) (tasks s) (EvTask i u)) (sw s) = 3%nat.
  Proof.
    intros Ha Hi Ha'. unfold sys_step in Ha'. rewrite Ha in Ha'. unfold commit in Ha'.
    cbn [ev_prog] in *. rewrite Hi in *. cbn [task_step t_phase t_job t_orig] in *.
    unfold task_tail in *. rewrite !run_bind' in Ha'. rewrite !cost_bind, !run_bind'.
    destruct (run h (execute_tail prof sched name j u) (sw s)) as [w1 o] eqn:E.
    destruct o as [r| |]; try done.
    destruct (mem_ok_tail j u (sw s) ltac:(eauto)) as (w2 & r2 & E2). rewrite E in E2. injection E2 as <- ->.
    rewrite (mem_tail_cost j u (sw s)) by eauto. reflexivity.
  Qed.
End exact.

Section calls.
  Context {M : Type} `{SM : Serde M}.
  Context (prof : profile).
  Context (sched : string → option (time → option time)).
  Context (name : string).
  Context (clock : nat → time).
  Notation h := (mem_h clock).
  Notation step := (sys_step prof sched name h).
  Notation calls s e := (cost h (ev_prog prof sched name (cfg s) (tasks s) e) (sw s)).

  Lemma tick_calls (s : sys world M) :
    let n := length (qlist name (sw s) Queued) in
    let started := (length (tasks (step s EvTick).1) - length (tasks s))%nat in
    alive s = true → Z.of_nat n <= i32_max →
    (free_slots name s = 0%nat → calls s EvTick = 1%nat) ∧
    ((0 < free_slots name s)%nat → ∃ B L, calls s EvTick = (2 + B + 2 * L + started)%nat ∧
      (started <= free_slots name s)%nat ∧ (1 <= B)%nat ∧ (20 * B <= n + 20)%nat ∧
      (L < n + 20)%nat ∧ (L <= 20 * B)%nat ∧
      ((started < free_slots name s)%nat → (n <= L)%nat)).
  Proof.
    intros n started Ha Hn. destruct (tick_cost prof sched name clock (cfg s) (tasks s) (sw s) Hn)
      as (w' & js & Hr & G1 & G2 & G3).
    assert (started = length js) as ->.
    { unfold started, sys_step. rewrite Ha. unfold commit. rewrite Hr. cbn [fst tasks].
      rewrite app_length, map_length. lia. }
    unfold free_slots. rewrite Ha. split; [done|]. intros Hf.
    destruct (G3 Hf) as (B & L & H1 & H2 & H3 & H4 & H5 & H6). exists B, L. auto 10.
  Qed.
  Lemma tick_bounds (s : sys world M) :
    let n := length (qlist name (sw s) Queued) in
    let started := (length (tasks (step s EvTick).1) - length (tasks s))%nat in
    alive s = true → Z.of_nat n <= i32_max →
    (calls s EvTick <= 41 + n / 20 + 2 * n + free_slots name s)%nat ∧
    ((started < free_slots name s)%nat → (3 + 2 * n + started <= calls s EvTick)%nat).
  Proof.
    intros n started Ha Hn. destruct (tick_calls s Ha Hn) as [H0 H1]. fold n started in H0, H1.
    destruct (decide (free_slots name s = 0%nat)) as [E|E].
    { rewrite (H0 E), E. split; lia. }
    destruct (H1 ltac:(lia)) as (B & L & -> & G1 & G2 & G3 & G4 & G5 & G6).
    assert (B <= n / 20 + 1)%nat.
    { pose proof (Nat.div_mod n 20 ltac:(lia)). pose proof (Nat.mod_upper_bound n 20 ltac:(lia)). lia. }
    split; [lia|]. intros Hs. specialize (G6 Hs). lia.
  Qed.
End calls.
