(** A job without a task whose record says Running stays as it is, and in the processing list if it is
    there, whatever events, crashes and crash points follow. *)
From Verif Require Import Spec JsonFacts BackendFacts WorldFacts FaultFacts.

Section orphan.
  Context {M : Type} `{SM : Serde M} {SO : SerdeOk M}.
  Context (prof : profile).
  Context (sched : string → option (time → option time)).
  Context (name : string).
  Context (clock : nat → time).
  Context (id : string) (j0 : job M) (held : Prop).
  Notation qlist := (qlist name).
  Notation stored := (@stored M SM).
  Notation qname := (format_queue_name name).

  Definition O (w : world) : Prop :=
    (∀ k j, stored w k = Some j → jid j = k) ∧ stored w id = Some j0 ∧ is_running j0 = true ∧
    (held → id ∈ qlist w Running) ∧ id ∉ qlist w Queued.
  Notation wp := (wp false clock O).

  Lemma O_eq w w' : (∀ k, stored w' k = stored w k) → (∀ s, qlist w' s = qlist w s) → O w → O w'.
  Proof.
    intros Hs Hq (H1&H2&H3&H4&H5). unfold O. rewrite !Hq, Hs. split; [|done].
    intros k j. rewrite Hs. apply H1.
  Qed.
  Lemma O_push w s x : x ≠ id → O w → O (w_push name w s x).
  Proof.
    intros Hx (H1&H2&H3&H4&H5). unfold O. rewrite !qlist_push, stored_push.
    split; [intros k j; rewrite stored_push; apply H1|]. split; [done|]. split; [done|]. split.
    - destruct (bool_decide_reflect (Running = s)) as [<-|]; [|done]. intros Hh. right. by apply H4.
    - destruct (bool_decide_reflect (Queued = s)) as [<-|]; [|done]. by rewrite elem_of_cons; intros [->|].
  Qed.
  Lemma O_rem w s x : x ≠ id → O w → O (w_rem name w s x).
  Proof.
    intros Hx (H1&H2&H3&H4&H5). unfold O. rewrite !qlist_rem, stored_rem.
    split; [intros k j; rewrite stored_rem; apply H1|]. split; [done|]. split; [done|]. split.
    - destruct (bool_decide_reflect (Running = s)) as [<-|]; [|done]. intros Hh. apply elem_of_list_filter. split; [done|]. by apply H4.
    - destruct (bool_decide_reflect (Queued = s)) as [<-|]; [|done]. by rewrite elem_of_list_filter; intros [].
  Qed.
  Lemma O_move w s : s = Queued ∨ s = Running → O w → O (w_move name w Queued s).
  Proof.
    intros Hs (H1&H2&H3&H4&H5). unfold O. rewrite stored_move.
    split; [intros k j; rewrite stored_move; apply H1|]. split; [done|]. split; [done|].
    destruct (queued_snoc name w) as [E|(l&x&E)].
    - by rewrite !(qlist_move_nil name w s _ E).
    - rewrite E in H5. apply not_elem_of_app in H5 as [H5 H6]. apply not_elem_of_cons in H6 as [H6 _].
      destruct Hs as [->| ->].
      + rewrite !(qlist_rotate name w l x _ E). rewrite bool_decide_false, bool_decide_true by done.
        split; [done|]. by rewrite elem_of_cons; intros [->|].
      + rewrite !(qlist_pick name w l x _ E). split; [|done]. intros Hh. right. by apply H4.
  Qed.
  Lemma O_put w j : jid j ≠ id → O w → O (w_put w j).
  Proof.
    intros Hx (H1&H2&H3&H4&H5). unfold O. rewrite !qlist_put. rewrite stored_put, bool_decide_false by done.
    split; [|done]. intros k j'. rewrite stored_put. destruct (bool_decide_reflect (k = jid j)) as [->|]; [|apply H1].
    intros [= <-]. by destruct j.
  Qed.

  (** The calls. *)
  Lemma op_ret {B} (b : B) (Q : B → world → Prop) w : O w → Q b w → wp (Ret b) Q w.
  Proof. done. Qed.
  Lemma op_now (Q : time → world → Prop) w : O w → (∀ w' t, O w' → Q t w') → wp (do Now) Q w.
  Proof.
    intros Hi H. cbn. assert (O (w_tick w)) by by apply (O_eq w). split; [done|]. split; [|done]. auto.
  Qed.
  Lemma op_send m (Q : unit → world → Prop) w : O w → (∀ w', O w' → Q tt w') → wp (do (Send m)) Q w.
  Proof.
    intros Hi H. cbn. assert (O (w_send w m)) by by apply (O_eq w). split; [done|]. split; [|done]. auto.
  Qed.
  Lemma op_push s x (Q : result unit → world → Prop) w :
    O w → x ≠ id → (∀ w' r, O w' → Q r w') → wp (do (QPush (qname s) x)) Q w.
  Proof. intros Hi Hx H. cbn. pose proof (O_push w s x Hx Hi). split; [done|]. split; [|done]. auto. Qed.
  Lemma op_rem s x (Q : result unit → world → Prop) w :
    O w → x ≠ id → (∀ w' r, O w' → Q r w') → wp (do (QRemove (qname s) x)) Q w.
  Proof. intros Hi Hx H. cbn. pose proof (O_rem w s x Hx Hi). split; [done|]. split; [|done]. auto. Qed.
  Lemma op_move s (Q : result (list string) → world → Prop) w :
    O w → s = Queued ∨ s = Running → (∀ w' r, O w' → Q r w') →
    wp (do (QMove (qname Queued) (qname s) 1 Back Front)) Q w.
  Proof.
    intros Hi Hx H.
    assert ((mem_h clock _ (QMove (qname Queued) (qname s) 1 Back Front) w).1 = w_move name w Queued s) as E.
    { cbn. unfold w_move. by destruct (mem_move _ _ _ _ _ _). }
    pose proof (O_move w s Hx Hi).
    cbn -[mem_h]. rewrite E. cbn [fail_ans]. split; [done|]. split; [|done]. auto.
  Qed.
  Lemma op_read {X : Set} (e : eff X) (Q : X → world → Prop) w :
    (mem_h clock _ e w).1 = w → O w → Q (mem_h clock _ e w).2 w → wp (do e) Q w.
  Proof.
    intros E Hi H. cbn -[mem_h]. rewrite E. split; [done|]. split; [done|]. by destruct (fail_ans e).
  Qed.
  Lemma op_get k (Q : _ → world → Prop) w :
    O w → Q (Ok (stored w k)) w → wp (get_from_storage (M:=M) k) Q w.
  Proof. intros Hi H. cbn. split; [done|]. split; done. Qed.
  Lemma op_upsert (j : job M) (Q : result unit → world → Prop) w :
    O w → jid j ≠ id → (∀ w' r, O w' → Q r w') → wp (upsert_to_storage (jid j) j) Q w.
  Proof. intros Hi Hx H. cbn. pose proof (O_put w j Hx Hi). split; [done|]. split; [|done]. auto. Qed.
  Lemma op_change (f : Z → job M) (Q : _ → world → Prop) k w :
    (∀ t, jid (f t) = k) → O w → k ≠ id →
    (∀ w' r, O w' → (∀ j', r = Ok j' → jid j' = k) → Q r w') →
    wp (let! t := get_now_as_ms in save_and_notify (f t)) Q w.
  Proof.
    intros Hf Hi Hx H. apply wp_bind. unfold get_now_as_ms. apply wp_bind, op_now; [done|].
    intros w1 t Hi1. apply op_ret; [done|]. unfold save_and_notify.
    apply wp_bind, op_upsert; [done|by rewrite Hf|]. intros w2 [[]|err] Hi2.
    - apply wp_bind, op_send; [done|]. intros w3 Hi3. apply op_ret; [done|]. apply H; [done|].
      by intros j' [= <-].
    - apply op_ret; [done|]. by apply H.
  Qed.

  Lemma op_enqueue (j : job M) (Q : _ → world → Prop) w :
    O w → jid j ≠ id → (∀ w' r, O w' → Q r w') → wp (enqueue name j) Q w.
  Proof.
    intros Hi Hx H. unfold enqueue. apply wp_bind, op_push; [done..|].
    intros w1 [[]|err] Hi1; [|by apply op_ret; [|apply H]].
    apply wp_bind. apply (op_change _ _ (jid j)); [done..|].
    intros w2 [j'|err] Hi2 Hj; (apply op_ret; [done|]); by apply H.
  Qed.
  Lemma op_run_config (j : job M) c (Q : _ → world → Prop) w :
    O w → (∀ w' r, O w' → Q r w') → wp (run_with_config name j c) Q w.
  Proof.
    intros Hi H. unfold run_with_config. apply wp_bind, op_get; [done|].
    destruct (decide (jid j = id)) as [->|Hne].
    - destruct Hi as (H1&H2&H3&H4). rewrite H2. apply wp_bind. rewrite H3, andb_false_r.
      apply op_ret; [done|]. assert (is_done j0 = false) as ->.
      { unfold is_running in H3. unfold is_done. by destruct (jstatus (ctx j0)). }
      rewrite andb_false_r. apply op_ret; [done|]. by apply H.
    - destruct (stored w (jid j)) as [ex|]; [|by apply op_enqueue].
      apply wp_bind.
      assert (∀ w1 (r : result unit), O w1 → wp match r with
        | Ok _ => if re_run c && is_done ex then let? _ := enqueue name j in Ret (Ok tt) else Ret (Ok tt)
        | Err e => Ret (Err e) end Q w1) as HH.
      { intros w1 [[]|err] Hi1; [|by apply op_ret; [|apply H]].
        destruct (re_run c && is_done ex); [|by apply op_ret; [|apply H]].
        apply wp_bind, op_enqueue; [done..|]. intros w2 [[]|err] Hi2; (apply op_ret; [done|]); by apply H. }
      destruct (override_data c && negb (is_running ex)).
      + apply op_upsert; [done..|]. intros w1 r Hi1. by apply (HH w1 r).
      + apply op_ret; [done|]. by apply (HH w (Ok tt)).
  Qed.
  Lemma op_re_enqueue (j : job M) (Q : _ → world → Prop) w :
    O w → jid j ≠ id → (∀ w' r, O w' → Q r w') → wp (re_enqueue name j) Q w.
  Proof.
    intros Hi Hx H. unfold re_enqueue. apply wp_bind, op_rem; [done..|].
    intros w1 [[]|err] Hi1; [|by apply op_ret; [|apply H]].
    apply wp_bind. apply (op_change _ _ (jid j)); [done..|].
    intros w2 [j'|err] Hi2 Hj; [|by apply op_ret; [|apply H]].
    apply wp_bind, op_push; [done|by rewrite (Hj j')|]. intros w3 r Hi3. apply op_ret; [done|]. by apply H.
  Qed.
  Lemma op_remove_processing x (Q : _ → world → Prop) w :
    O w → x ≠ id → (∀ w', O w' → Q tt w') → wp (remove_processing_job name x) Q w.
  Proof.
    intros Hi Hx H. unfold remove_processing_job. apply wp_bind, op_rem; [done..|].
    intros w1 r Hi1. apply op_ret; [done|]. by apply H.
  Qed.
  Lemma op_finished (j : job M) (Q : _ → world → Prop) w :
    O w → jid j ≠ id → (∀ w' r, O w' → Q r w') → wp (mark_job_is_finished name j) Q w.
  Proof.
    intros Hi Hx H. unfold mark_job_is_finished. apply wp_bind, op_remove_processing; [done..|].
    intros w1 Hi1. apply wp_bind. apply (op_change _ _ (jid j)); [done..|].
    intros w2 [j'|err] Hi2 Hj; [|by apply op_ret; [|apply H]].
    apply wp_bind, op_push; [done|by rewrite (Hj j')|]. intros w3 r Hi3. apply op_ret; [done|]. by apply H.
  Qed.
  Lemma op_failed (j : job M) (Q : _ → world → Prop) w :
    O w → jid j ≠ id → (∀ w' r, O w' → Q r w') → wp (mark_job_is_failed name j) Q w.
  Proof.
    intros Hi Hx H. unfold mark_job_is_failed. apply wp_bind.
    apply (op_change _ _ (jid j)); [done..|].
    intros w1 [j'|err] Hi1 Hj; [|by apply op_ret; [|apply H]].
    unfold push_failed_job. apply wp_bind, wp_bind, op_remove_processing; [done|by rewrite (Hj j')|].
    intros w2 Hi2. apply wp_bind, op_push; [done|by rewrite (Hj j')|]. intros w3 r Hi3.
    apply op_ret; [done|]. apply op_ret; [done|]. by apply H.
  Qed.
  Lemma op_next_tick (j : job M) (Q : _ → world → Prop) w :
    O w → (∀ w' o, O w' → (∀ j', o = Some j' → jid j' = jid j) → Q o w') → wp (next_tick prof sched j) Q w.
  Proof.
    intros Hi H. unfold next_tick. apply wp_bind, op_now; [done|]. intros w1 now Hi1.
    destruct (jtype (ctx j)) as [| |ex nx n cc]; try (by apply op_ret; [|apply H]).
    destruct (sched ex) as [f|]; [|by apply op_ret; [|apply H]].
    apply wp_bind, op_now; [done|]. intros w2 now2 Hi2.
    assert (∀ j', jid j' = jid j → wp
     (if match max_repeat cc with Some m => m <? n | None => false end then Ret None
      else if match end_at cc with Some e => e <? now | None => false end then Ret None
      else Ret (Some j')) Q w2) as HH.
    { intros j' Hj. destruct (match max_repeat cc with Some m => m <? n | None => false end);
        [by apply op_ret; [|apply H]|].
      destruct (match end_at cc with Some e => e <? now | None => false end);
        [by apply op_ret; [|apply H]|].
      apply op_ret; [done|]. apply H; [done..|]. by intros ? [= <-]. }
    destruct (f now2); [|by apply HH]. destruct (i32_norm prof (n + 1)); [|done]. by apply HH.
  Qed.
  Lemma op_tail (orig j : job M) u (Q : _ → world → Prop) w :
    O w → jid j ≠ id → jid orig ≠ id → (∀ w', O w' → Q tt w') →
    wp (task_tail prof sched name orig j u) Q w.
  Proof.
    intros Hi Hx Ho H. unfold task_tail. apply wp_bind.
    assert (∀ w1 (r : result unit), O w1 → wp match r with
      | Ok _ => Ret tt | Err _ => let! _ := mark_job_is_failed name orig in Ret tt end Q w1) as HH.
    { intros w1 [[]|err] Hi1; [by apply op_ret; [|apply H]|].
      apply wp_bind, op_failed; [done..|]. intros w2 r Hi2. apply op_ret; [done|]. by apply H. }
    assert (∀ j' b w1, O w1 → jid j' = jid j →
      wp (execute_finish prof sched name j' b) (λ r w', wp match r with
      | Ok _ => Ret tt | Err _ => let! _ := mark_job_is_failed name orig in Ret tt end Q w') w1) as Hfin.
    { intros j' b w1 Hi1 Hj. unfold execute_finish. apply wp_bind, op_next_tick; [done|].
      intros w2 [nj|] Hi2 Hn.
      - apply op_re_enqueue; [done|rewrite (Hn nj) by done; by rewrite Hj|].
        intros w3 r Hi3. by apply (HH w3 r).
      - destruct b; [apply op_failed|apply op_finished]; try done; try (by rewrite Hj);
        intros w3 r Hi3; by apply (HH w3 r). }
    unfold execute_tail. destruct (jretry (ctx j)) as [rt|]; [|by apply Hfin].
    apply wp_bind. unfold call_retry_at. destruct (ur_retry u) as [fl|r' o].
    - destruct (fl && should_retry rt).
      + apply wp_bind, op_now; [done|]. intros w1 now Hi1.
        destruct (retry_retry_at prof rt now) as [[r' t]|]; [|done]. apply op_ret; [done|].
        apply op_re_enqueue; [done..|]. intros w2 r Hi2. by apply (HH w2 r).
      + apply op_ret; [done|]. by apply Hfin.
    - apply op_ret; [done|]. destruct o as [t|].
      + apply op_re_enqueue; [done..|]. intros w2 r Hi2. by apply (HH w2 r).
      + by apply Hfin.
  Qed.
  Lemma op_cancel k (Q : _ → world → Prop) w :
    O w → (∀ w' r, O w' → Q r w') → wp (cancel_job (M:=M) name k) Q w.
  Proof.
    intros Hi H. unfold cancel_job. apply wp_bind, op_get; [done|].
    destruct (stored w k) as [j|] eqn:Ej; [|apply op_ret; [done|]; by apply H].
    destruct (is_queued j) eqn:Eq; [|apply op_ret; [done|]; by apply H].
    assert (jid j = k ∧ k ≠ id) as [Hk Hne].
    { destruct Hi as (H1&H2&H3&_). split; [by apply H1|]. intros ->. rewrite Ej in H2. injection H2 as ->.
      unfold is_running in H3. unfold is_queued in Eq. by destruct (jstatus (ctx j0)). }
    apply wp_bind. apply (op_change _ _ (jid j)); [done|done|by rewrite Hk|].
    intros w1 [j'|err] Hi1 Hj; [|by apply op_ret; [|apply H]].
    apply wp_bind, op_rem; [done..|]. intros w2 [[]|err] Hi2; (apply op_ret; [done|]); by apply H.
  Qed.
  Lemma op_retry k (Q : _ → world → Prop) w :
    O w → (∀ w' r, O w' → Q r w') → wp (retry_job (M:=M) name k) Q w.
  Proof.
    intros Hi H. unfold retry_job. apply wp_bind, op_get; [done|].
    destruct (stored w k) as [j|] eqn:Ej; [|apply op_ret; [done|]; by apply H].
    destruct (is_done j) eqn:Eq; [|apply op_ret; [done|]; by apply H].
    assert (jid j = k ∧ k ≠ id) as [Hk Hne].
    { destruct Hi as (H1&H2&H3&_). split; [by apply H1|]. intros ->. rewrite Ej in H2. injection H2 as ->.
      unfold is_running in H3. unfold is_done in Eq. by destruct (jstatus (ctx j0)). }
    apply wp_bind. apply op_re_enqueue; [done|by rewrite Hk|].
    intros w1 [[]|err] Hi1; (apply op_ret; [done|]); by apply H.
  Qed.
  Definition other (j : job M) : Prop := jid j ≠ id.
  Lemma op_pick_batch total ids (ready : list (job M)) (Q : _ → world → Prop) w :
    O w → id ∉ ids → Forall other ready →
    (∀ w' r, O w' → (∀ js, r = Ok js → Forall other js) → Q r w') → wp (pick_batch name total ids ready) Q w.
  Proof.
    revert ready w. induction ids as [|k ids IH]; intros ready w Hi Hids Hr H; cbn [pick_batch].
    { apply op_ret; [done|]. apply H; [done|]. by intros js [= <-]. }
    apply not_elem_of_cons in Hids as [Hk Hids].
    assert (∀ w1, O w1 → wp (let? _ := do (QMove (qname Queued) (qname Queued) 1 Back Front) in
        pick_batch name total ids ready) Q w1) as Hrot.
    { intros w1 Hi1. apply wp_bind, op_move; [done|by left|].
      intros w2 [l|err] Hi2; [by apply IH|]. apply op_ret; [done|]. by apply H. }
    apply wp_bind, op_get; [done|]. destruct (stored w k) as [j|] eqn:Ej; [|by apply Hrot].
    assert (jid j ≠ id) as Hj0 by (destruct Hi as [Hi _]; rewrite (Hi k j Ej); congruence).
    apply wp_bind, op_now; [done|]. intros w1 now Hi1.
    destruct (is_ready j now && _ && _); [|by apply Hrot].
    apply wp_bind. apply (op_change _ _ (jid j)); [done..|].
    intros w2 [j'|err] Hi2 Hj; [|by apply op_ret; [|apply H]].
    apply wp_bind, op_move; [done|by right|].
    intros w3 [l|err] Hi3; [|by apply op_ret; [|apply H]].
    apply IH; [done|done| |done]. apply Forall_app. split; [done|]. apply Forall_singleton.
    unfold other. by rewrite (Hj j').
  Qed.
  Lemma op_pick_loop fuel total (ready : list (job M)) cursor (Q : _ → world → Prop) w :
    O w → Forall other ready →
    (∀ w' r, O w' → (∀ js, r = Ok js → Forall other js) → Q r w') →
    wp (pick_loop prof name fuel total ready cursor) Q w.
  Proof.
    revert ready cursor w. induction fuel as [|fuel IH]; intros ready cursor w Hi Hr H; cbn [pick_loop]; [done|].
    apply wp_bind, op_read; [done|done|]. cbn [mem_h snd].
    assert (id ∉ mem_get (st w) (qname Queued) BATCH Back) as Hids.
    { rewrite mem_get_spec. destruct Hi as (_&_&_&_&Hi). intros Hin. apply Hi.
      rewrite qlist_ql. cbn [from_end] in Hin. apply elem_of_take in Hin as (i&Hin&_).
      apply elem_of_list_lookup_2 in Hin. apply elem_of_list_In, in_rev, elem_of_list_In in Hin. done. }
    destruct (i32_norm prof _); [|done].
    apply wp_bind, op_pick_batch; [done..|]. intros w1 [rd|err] Hi1 Hrd; [|by apply op_ret; [|apply H]].
    destruct (total <=? length rd)%nat; [by apply op_ret; [|apply H]|].
    destruct (z <=? 0); [by apply op_ret; [|apply H]|].
    apply IH; [done| |done]. by apply Hrd.
  Qed.
  Definition other_task (t : task M) : Prop := jid (t_orig t) ≠ id ∧ jid (t_job t) ≠ id.
  Lemma op_process_jobs c ts (Q : list (task M) → world → Prop) w :
    O w → Forall other_task ts → (∀ w' ts', O w' → Forall other_task ts' → Q ts' w') →
    wp (process_jobs prof name c ts) Q w.
  Proof.
    intros Hi Hts H. unfold process_jobs. apply wp_bind.
    assert (∀ w1 (r : result (list (job M))), O w1 → (∀ js, r = Ok js → Forall other js) →
       wp (Ret match r with Ok js => ts ++ map (λ j, Task j j Spawned) js | Err _ => ts end) Q w1) as HH.
    { intros w1 [js|err] Hi1 Hr; (apply op_ret; [done|]); apply H; try done.
      apply Forall_app. split; [done|]. apply Forall_map. eapply Forall_impl; [|by apply Hr].
      intros j Hj. by split. }
    unfold pick_jobs_to_process. apply wp_bind, op_read; [done|done|].
    destruct (max_processing_jobs c <=? _)%nat.
    { apply op_ret; [done|]. apply (HH w (Ok [])); [done|]. by intros js [= <-]. }
    unfold try_pick_specific_ready_jobs. apply wp_bind, op_read; [done|done|]. cbn [mem_h snd].
    apply op_pick_loop; [done..|]. intros w1 r1 Hi1 Hr. by apply (HH w1 r1).
  Qed.

  (** ** The system *)
  Notation sys := (sys world M).
  Notation step := (sys_step prof sched name (mem_h clock)).
  Definition OS (s : sys) : Prop := O (sw s) ∧ Forall other_task (tasks s).

  Lemma ev_prog_orphan c ts e w :
    O w → Forall other_task ts →
    wp (ev_prog prof sched name c ts e) (λ r w', Forall other_task r.1.1.2 ∧ Forall other r.1.2) w.
  Proof.
    intros Hi Ht. assert (Forall other []) as Hnil by constructor.
    destruct e as [j ec|k|k|k|c'| |i u| | |e n|]; cbn [ev_prog].
    - apply wp_bind, op_run_config; [done|]. intros w1 r Hi1. by apply op_ret.
    - apply wp_bind, op_cancel; [done|]. intros w1 r Hi1. by apply op_ret.
    - apply wp_bind. unfold get_job. apply op_get; [done|]. by apply op_ret.
    - apply wp_bind, op_retry; [done|]. intros w1 r Hi1. by apply op_ret.
    - by apply op_ret.
    - apply wp_bind, op_process_jobs; [done..|]. intros w1 js Hi1 Hts. by apply op_ret.
    - destruct (ts !! i) as [t|] eqn:Et; [|by apply op_ret].
      assert (other_task t) as [H1 H2] by by eapply Forall_lookup_1.
      apply wp_bind. unfold task_step. destruct (t_phase t) eqn:Eph.
      + destruct (is_cancelled (t_job t)).
        * apply wp_bind. unfold mark_job_is_canceled. apply wp_bind, op_push; [done..|].
          intros w1 r Hi1. apply op_ret; [done|]. apply op_ret; [done|]. apply op_ret; [done|]. split; [|done].
          by apply Forall_delete.
        * apply wp_bind, op_send; [done|]. intros w1 Hi1. apply op_ret; [done|]. apply op_ret; [done|].
          split; [|done]. by apply Forall_insert.
      + apply op_ret; [done|]. apply op_ret; [done|]. split; [by apply Forall_insert|]. by apply Forall_singleton.
      + apply wp_bind, op_send; [done|]. intros w1 Hi1. apply op_ret; [done|]. apply op_ret; [done|].
        split; [|done]. by apply Forall_insert.
      + apply wp_bind, op_tail; [done..|]. intros w1 Hi1. apply op_ret; [done|].
        apply op_ret; [done|]. split; [|done]. by apply Forall_delete.
    - apply op_ret; [done|]. split; [constructor|done].
    - apply op_ret; [done|]. split; [constructor|done].
    - apply op_ret; [done|]. split; [constructor|done].
    - apply wp_bind, op_process_jobs; [done..|]. intros w1 js Hi1 Hts. by apply op_ret.
  Qed.

  Lemma orphan_step s e : OS s → OS (step s e).1 ∧ runs_of id (step s e).1 = runs_of id s.
  Proof.
    intros [Hi Ht].
    assert (∀ e, OS (commit prof sched name (mem_h clock) s e).1 ∧
      runs_of id (commit prof sched name (mem_h clock) s e).1 = runs_of id s) as Hcm.
    { intros e'. pose proof (ev_prog_orphan (cfg s) (tasks s) e' (sw s) Hi Ht) as Hw.
      apply wp_run_mem in Hw. unfold commit. cbn zeta in Hw.
      destruct (run (mem_h clock) (ev_prog prof sched name (cfg s) (tasks s) e') (sw s)) as [w' o].
      cbn [fst snd] in Hw. destruct Hw as [H1 H2]. destruct o as [[[[c ts] js] r]| |].
      - destruct (H2 _ eq_refl) as [H3 H4]. cbn in *. split; [by split|]. unfold runs_of. cbn.
        rewrite list.filter_app. replace (filter (λ j, jid j = id) js) with (@nil (job M)); [by rewrite app_nil_r|].
        symmetry. clear -H4. induction H4 as [|j js Hj _ IH]; [done|]. by rewrite filter_cons_False.
      - split; [split; [done|constructor]|done].
      - split; [split; [done|constructor]|done]. }
    assert (OS (Sys (sw s) (cfg s) [] false (runs s))) as Hd by (split; [done|constructor]).
    assert (∀ e' n, OS (Sys (run_n (mem_h clock) n (ev_prog prof sched name (cfg s) (tasks s) e') (sw s)) (cfg s) [] false (runs s))) as Hn.
    { intros e' n. split; [cbn|constructor].
      eapply wp_run_n_mem. by apply (ev_prog_orphan (cfg s) (tasks s) e' (sw s)). }
    unfold sys_step. destruct (alive s).
    - destruct e; try (by apply Hcm); try done.
      destruct e; try (split; [by apply Hn|done]); done.
    - destruct e; try done; try (by apply Hcm). destruct e; try done. split; [by apply Hn|done].
  Qed.
  Lemma orphan_run s es :
    OS s → OS (sys_run prof sched name (mem_h clock) s es) ∧
      runs_of id (sys_run prof sched name (mem_h clock) s es) = runs_of id s.
  Proof.
    unfold sys_run. revert s. induction es as [|e es IH]; intros s HJ; cbn; [done|].
    destruct (orphan_step s e HJ) as [H1 H2]. destruct (IH _ H1) as [H3 H4]. split; [done|]. by rewrite H4.
  Qed.
End orphan.
