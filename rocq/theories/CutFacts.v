(** The writes of a step, one by one. *)
From Verif Require Import CrashFacts SpecCut JsonFacts BackendFacts WorldFacts MicroFacts LifeFacts HistFacts SubmitFacts PickFacts
  StrayCases.

Section cut.
  Context {M : Type} `{SM : Serde M} {SO : SerdeOk M}.
  Context (prof : profile).
  Context (sched : string → option (time → option time)).
  Context (name : string).
  Context (clock : nat → time).
  Notation qname := (format_queue_name name).
  Notation qlist := (qlist name).
  Notation stored := (@stored M SM).
  Notation sys := (Sys.sys world M).
  Notation h := (mem_h clock).
  Notation step := (sys_step prof sched name (mem_h clock)).
  Notation made := (made (M := M) name).
  Notation made_all := (made_all (M := M) name).
  Notation quiet w w' := (same_lists name w w' ∧ same_records (M := M) w w').

  (** *** Changes *)
  Lemma quiet_refl w : quiet w w.
  Proof. done. Qed.
  Lemma quiet_trans w1 w2 w3 : quiet w1 w2 → quiet w2 w3 → quiet w1 w3.
  Proof. intros [H1 H2] [H3 H4]. split; intros x; [by rewrite H3|by rewrite H4]. Qed.
  Lemma made_quiet c w w1 w2 : quiet w w1 → made c w1 w2 → made c w w2.
  Proof.
    intros [Hl Hr]. destruct c as [s id|s id|j|id|id]; cbn [SpecCut.made]; unfold same_lists, same_records in *.
    - rewrite Hl. intros (H1&H2&H3). split; [done|]. split; [intros; by rewrite H2|intros; by rewrite H3].
    - rewrite Hl. intros (H1&H2&H3). split; [done|]. split; [intros; by rewrite H2|intros; by rewrite H3].
    - intros (H1&H2&H3). split; [intros; by rewrite H1|]. split; [done|intros; by rewrite H3].
    - rewrite Hl. intros (H1&H2&H3). split; [done|]. split; [intros; by rewrite H2|intros; by rewrite H3].
    - rewrite !Hl. intros (H1&H2&H3&H4). split; [done|]. split; [done|]. split; [intros; by rewrite H3|intros; by rewrite H4].
  Qed.
  Lemma made_all_quiet l w w1 w2 : quiet w w1 → made_all l w1 w2 → made_all l w w2.
  Proof.
    intros Hq. destruct l as [|c l]; cbn [SpecCut.made_all]; [by apply quiet_trans|].
    intros (w3&H1&H2). exists w3. split; [by eapply made_quiet|done].
  Qed.

  (** *** Programs *)
  Fixpoint does {A} (p : prog A) (w : world) (l : list (change M)) : Prop :=
    match p with
    | Eff e k =>
        let r := h _ e w in
        (quiet w r.1 ∧ does (k r.2) r.1 l) ∨ (∃ c l', l = c :: l' ∧ made c w r.1 ∧ does (k r.2) r.1 l')
    | _ => l = []
    end.
  Lemma does_cut {A} n (p : prog A) w l :
    does p w l → ∃ m, (m <= length l)%nat ∧ made_all (take m l) w (run_n h n p w).
  Proof.
    revert p w l. induction n as [|n IH]; intros p w l Hd; [exists O; split; [lia|done]|].
    destruct p as [a| | |X e k]; [exists O; split; [lia|done]..|]. cbn [run_n].
    cbn [does] in Hd. destruct (h X e w) as [w' x]. cbn [fst snd] in Hd. cbv zeta in Hd.
    destruct Hd as [[Hq Hd]|(c&l'&->&Hm&Hd)]; apply (IH _ w') in Hd as (m&Hle&Hp).
    - exists m. split; [done|]. by eapply made_all_quiet.
    - exists (S m). split; [cbn; lia|]. cbn [take SpecCut.made_all]. eauto.
  Qed.
  Lemma does_reach {A} (p : prog A) w l m :
    does p w l → (m <= length l)%nat → ∃ n, made_all (take m l) w (run_n h n p w).
  Proof.
    revert w l m. induction p as [a| | |X e k IH]; intros w l m Hd Hle; cbn [does] in Hd.
    1-3: subst l; exists O; by rewrite take_nil.
    destruct m as [|m]; [by exists O|]. destruct (h X e w) as [w' x] eqn:E. cbn [fst snd] in Hd. cbv zeta in Hd.
    destruct Hd as [[Hq Hd]|(c&l'&->&Hm&Hd)].
    - destruct (IH x w' l (S m) Hd Hle) as [n Hn]. exists (S n). cbn [run_n]. rewrite E. by eapply made_all_quiet.
    - destruct (IH x w' l' m Hd ltac:(cbn in Hle; lia)) as [n Hn]. exists (S n). cbn [run_n]. rewrite E.
      cbn [take SpecCut.made_all]. eauto.
  Qed.
  Lemma does_all {A} (p : prog A) w l : does p w l → made_all l w (run h p w).1.
  Proof.
    revert w l. induction p as [a| | |X e k IH]; intros w l Hd; cbn [does] in Hd; [by subst l..|].
    cbn [run]. destruct (h X e w) as [w' x] eqn:E. cbn [fst snd] in Hd. cbv zeta in Hd.
    destruct Hd as [[Hq Hd]|(c&l'&->&Hm&Hd)]; apply IH in Hd.
    - by eapply made_all_quiet.
    - cbn [SpecCut.made_all]. eauto.
  Qed.
  Lemma does_bind {A B} (p : prog A) (f : A → prog B) w l1 l2 w' a :
    run h p w = (w', Done a) → does p w l1 → does (f a) w' l2 → does (bind p f) w (l1 ++ l2).
  Proof.
    revert w l1. induction p as [x| | |X e k IH]; intros w l1 Hr Hd Hf; cbn [run bind does] in *; try done.
    - injection Hr as <- <-. by subst l1.
    - destruct (h X e w) as [w1 x]. cbn [fst snd] in *. cbv zeta in *.
      destruct Hd as [[Hq Hd]|(c&l'&->&Hm&Hd)]; [left; split; [done|]; by apply IH|].
      right. exists c, (l' ++ l2). split; [done|]. split; [done|]. by apply IH.
  Qed.
  (** What follows only returns. *)
  Lemma does_bind_ret {A B} (p : prog A) (f : A → prog B) w l :
    (∀ a w', does (f a) w' []) → does p w l → does (bind p f) w l.
  Proof.
    intros Hf. revert w l. induction p as [x| | |X e k IH]; intros w l Hd; cbn [bind does] in *; try done.
    - subst l. apply Hf.
    - cbv zeta in *. destruct (h X e w) as [w1 x]. cbn [fst snd] in *.
      destruct Hd as [[Hq Hd]|(c&l'&->&Hm&Hd)]; [left; split; [done|]; by apply IH|].
      right. exists c, l'. split; [done|]. split; [done|]. by apply IH.
  Qed.

  (** *** Calls *)
  Lemma made_push w s x : made (Adds s x) w (w_push name w s x).
  Proof.
    split; [by rewrite qlist_push, bool_decide_true|]. split; [|intros k; apply stored_push].
    intros s' Hs. by rewrite qlist_push, bool_decide_false.
  Qed.
  Lemma made_rem w s x : made (Takes s x) w (w_rem name w s x).
  Proof.
    split; [by rewrite qlist_rem, bool_decide_true|]. split; [|intros k; apply stored_rem].
    intros s' Hs. by rewrite qlist_rem, bool_decide_false.
  Qed.
  Lemma made_put w (j : job M) : made (Writes j) w (w_put w j).
  Proof.
    split; [intros s; apply qlist_put|]. split.
    - exists (norm_job j). split; [apply read_back_norm|]. by rewrite stored_put, bool_decide_true.
    - intros k Hk. by rewrite stored_put, bool_decide_false.
  Qed.
  Lemma made_turn w l x : qlist w Queued = l ++ [x] → made (Turns x) w (w_move name w Queued Queued).
  Proof.
    intros E. split; [exists l; split; [done|]; by rewrite (qlist_rotate name w l x _ E)|].
    split; [|intros k; apply stored_move]. intros s Hs. by rewrite (qlist_rotate name w l x _ E), bool_decide_false.
  Qed.
  Lemma made_move w l x : qlist w Queued = l ++ [x] → made (Moves x) w (w_move name w Queued Running).
  Proof.
    intros E. split; [exists l; split; [done|]; by rewrite (qlist_pick name w l x _ E)|].
    split; [by rewrite (qlist_pick name w l x _ E)|].
    split; [|intros k; apply stored_move]. intros s Hs1 Hs2. rewrite (qlist_pick name w l x _ E). by destruct s.
  Qed.
  Lemma d_push {A} s x (k : _ → prog A) w l :
    does (k (Ok tt)) (w_push name w s x) l → does (Eff (QPush (qname s) x) k) w (Adds s x :: l).
  Proof. intros H. right. eexists _, _. split; [done|]. split; [apply made_push|exact H]. Qed.
  Lemma d_rem {A} s x (k : _ → prog A) w l :
    does (k (Ok tt)) (w_rem name w s x) l → does (Eff (QRemove (qname s) x) k) w (Takes s x :: l).
  Proof. intros H. right. eexists _, _. split; [done|]. split; [apply made_rem|exact H]. Qed.
  Lemma d_put {A} (j : job M) (k : _ → prog A) w l :
    does (k (Ok tt)) (w_put w j) l → does (Eff (SUpsert STORAGE_HASH (jid j) (enc_job j)) k) w (Writes j :: l).
  Proof. intros H. right. eexists _, _. split; [done|]. split; [apply made_put|exact H]. Qed.
  Lemma d_now {A} (k : _ → prog A) w l : does (k (clock (reads w))) (w_tick w) l → does (Eff Now k) w l.
  Proof. intros H. left. split; [done|exact H]. Qed.
  Lemma d_send {A} m (k : _ → prog A) w l : does (k tt) (w_send w m) l → does (Eff (Send m) k) w l.
  Proof. intros H. left. split; [done|exact H]. Qed.
  Lemma d_move {A} s (k : _ → prog A) c w l :
    made c w (w_move name w Queued s) → (∀ x, does (k (Ok x)) (w_move name w Queued s) l) →
    does (Eff (QMove (qname Queued) (qname s) 1 Back Front) k) w (c :: l).
  Proof.
    intros Hm H. right. exists c, l. split; [done|].
    assert ((h _ (QMove (qname Queued) (qname s) 1 Back Front) w).1 = w_move name w Queued s ∧
      ∃ x, (h _ (QMove (qname Queued) (qname s) 1 Back Front) w).2 = Ok x) as [E [x Ex]].
    { cbn. unfold w_move. destruct (mem_move _ _ _ _ _ _). eauto. }
    cbv zeta. rewrite E, Ex. split; [done|apply H].
  Qed.

  (** *** Handlers *)
  Lemma does_save (f : Z → job M) {B} (k : result (job M) → prog B) w l :
    does (k (Ok (f (now_ms clock w)))) (w_save (w_tick w) (f (now_ms clock w))) l →
    does (bind (let! t := get_now_as_ms in save_and_notify (f t)) k) w (Writes (f (now_ms clock w)) :: l).
  Proof.
    intros H. unfold get_now_as_ms, get_now, save_and_notify, upsert_to_storage, do. cbn [bind].
    apply d_now. cbn [bind]. apply d_put. cbn [bind]. apply d_send. cbn [bind]. exact H.
  Qed.
  Lemma does_enqueue (j : job M) w :
    does (enqueue name j) w [Adds Queued (jid j); Writes (as_queued j (clock (reads w) / 1000000))].
  Proof.
    unfold enqueue, do. cbn [bind]. apply d_push. unfold job_enqueue.
    by apply (does_save (λ t, as_queued j t) _ (w_push name w Queued (jid j)) []).
  Qed.
  Lemma does_re_enqueue (j : job M) w :
    does (re_enqueue name j) w
      [Takes (jstatus (ctx j)) (jid j); Writes (as_queued j (clock (reads w) / 1000000)); Adds Queued (jid j)].
  Proof.
    unfold re_enqueue, do. cbn [bind]. apply d_rem. unfold job_enqueue.
    apply (does_save (λ t, as_queued j t) _ (w_rem name w (jstatus (ctx j)) (jid j))). cbn [bind]. by apply d_push.
  Qed.
  Lemma does_finished (j : job M) w :
    does (mark_job_is_finished name j) w
      [Takes Running (jid j); Writes (as_settled Finished j (clock (reads w) / 1000000)); Adds Finished (jid j)].
  Proof.
    unfold mark_job_is_finished, remove_processing_job, do. cbn [bind]. apply d_rem. unfold job_finish.
    apply (does_save (λ t, as_settled Finished j t) _ (w_rem name w Running (jid j))). cbn [bind]. by apply d_push.
  Qed.
  Lemma does_failed (j : job M) w :
    does (mark_job_is_failed name j) w
      [Writes (as_settled Failed j (clock (reads w) / 1000000)); Takes Running (jid j); Adds Failed (jid j)].
  Proof.
    unfold mark_job_is_failed, push_failed_job, remove_processing_job, do, job_fail.
    apply (does_save (λ t, as_settled Failed j t) _ w). cbn [bind]. apply d_rem. cbn [bind]. by apply d_push.
  Qed.
  Lemma does_get {B} id (k : result (option (job M)) → prog B) w l :
    does (k (Ok (stored w id))) w l → does (bind (get_from_storage id) k) w l.
  Proof. intros H. left. split; [done|exact H]. Qed.

  Lemma does_submit (j : job M) c w :
    does (run_with_config name j c) w
      match stored w (jid j) with
      | None => [Adds Queued (jid j); Writes (as_queued j (clock (reads w) / 1000000))]
      | Some ex =>
          (if override_data c && bool_decide (jstatus (ctx ex) ≠ Running) then [Writes j] else []) ++
          (if re_run c && bool_decide (done_status (jstatus (ctx ex)))
           then [Adds Queued (jid j); Writes (as_queued j (clock (reads w) / 1000000))] else [])
      end.
  Proof.
    unfold run_with_config. apply does_get. destruct (stored w (jid j)) as [ex|]; [|apply does_enqueue].
    assert (negb (is_running ex) = bool_decide (jstatus (ctx ex) ≠ Running)) as ->.
    { unfold is_running. by destruct (jstatus (ctx ex)). }
    assert (is_done ex = bool_decide (done_status (jstatus (ctx ex)))) as ->.
    { apply eq_true_iff_eq. rewrite bool_decide_eq_true. apply is_done_iff. }
    assert (∀ w1, reads w1 = reads w → does (if re_run c && bool_decide (done_status (jstatus (ctx ex)))
      then let? _ := enqueue name j in Ret (Ok tt) else Ret (Ok tt)) w1
      (if re_run c && bool_decide (done_status (jstatus (ctx ex)))
       then [Adds Queued (jid j); Writes (as_queued j (clock (reads w) / 1000000))] else [])) as Hen.
    { intros w1 E. destruct (re_run c && _); [|done].
      apply does_bind_ret; [by intros [[]|] w'|]. rewrite <-E. apply does_enqueue. }
    destruct (override_data c && _); [|by apply Hen].
    unfold upsert_to_storage, do. cbn [bind app]. apply d_put. by apply Hen.
  Qed.
  Lemma does_cancel id w :
    (∀ j, stored w id = Some j → jid j = id) →
    does (@cancel_job M SM name id) w
      match stored w id with
      | Some j => if is_queued j then [Writes (as_canceled j (clock (reads w) / 1000000)); Takes Queued id] else []
      | None => []
      end.
  Proof.
    intros Hk. unfold cancel_job. apply does_get. destruct (stored w id) as [j|]; [|done].
    destruct (is_queued j); [|done]. unfold job_cancel.
    apply (does_save (λ t, as_canceled j t) _ w). unfold do. cbn [bind]. by apply d_rem.
  Qed.
  Lemma does_retry id w :
    (∀ j, stored w id = Some j → jid j = id) →
    does (@retry_job M SM name id) w
      match stored w id with
      | Some j => if is_done j then [Takes (jstatus (ctx j)) id; Writes (as_queued j (clock (reads w) / 1000000)); Adds Queued id] else []
      | None => []
      end.
  Proof.
    intros Hk. unfold retry_job. apply does_get. destruct (stored w id) as [j|]; [|done].
    specialize (Hk j eq_refl). destruct (is_done j); [|done].
    apply does_bind_ret; [by intros [[]|] w'|]. rewrite <-Hk. apply does_re_enqueue.
  Qed.

  (** *** Picking *)
  Definition keyed (w : world) : Prop := ∀ k j, stored w k = Some j → jid j = k.
  Notation picking := (picking (M := M) name clock).
  Lemma picking_quiet w w1 l : quiet w w1 → (reads w <= reads w1)%nat → picking w1 l → picking w l.
  Proof.
    intros Hq Hr Hp. destruct Hp as [|w1 w' id l Hm Hp|w1 w2 w3 id j k t l Hj Hk Hd Ht Hm1 Hm2 Hp]; [constructor|..].
    - eapply pk_turn; [by eapply made_quiet|done].
    - eapply (pk_pick _ _ w w2 w3 id j k t l); try done; [by rewrite <-(proj2 Hq)|lia|by eapply made_quiet].
  Qed.
  Definition goes {B} (p : prog B) (w : world) : Prop := ∃ l, does p w l ∧ picking w l.
  Lemma goes_ret {B} (b : B) w : goes (Ret b) w.
  Proof. exists []. split; [done|constructor]. Qed.
  Lemma goes_panic {B} w : goes (B := B) Panic w.
  Proof. exists []. split; [done|constructor]. Qed.
  Lemma goes_diverge {B} w : goes (B := B) Diverge w.
  Proof. exists []. split; [done|constructor]. Qed.
  Lemma goes_quiet {B} {X : Set} (e : eff X) (k : X → prog B) w :
    (h _ e w).1 = w → goes (k (h _ e w).2) w → goes (Eff e k) w.
  Proof.
    intros E (l&Hd&Hp). exists l. split; [|done]. left. cbv zeta. rewrite E. done.
  Qed.

  Lemma goes_batch {B} (f : _ → prog B) total ids rest ready w :
    rev (qlist w Queued) = ids ++ rest → keyed w →
    (∀ ready' w', keyed w' → goes (f (Ok ready')) w') →
    goes (bind (pick_batch name total ids ready) f) w.
  Proof.
    revert rest ready w. induction ids as [|id ids IH]; intros rest ready w Hq Hk Hf; [by apply Hf|].
    cbn [pick_batch]. cbn [app] in Hq. pose proof (rev_snoc _ _ _ Hq) as Hs.
    assert (∀ w1, quiet w w1 → (reads w <= reads w1)%nat →
      ∃ l, does (bind (let? _ := do (QMove (qname Queued) (qname Queued) 1 Back Front) in
        pick_batch name total ids ready) f) w1 l ∧ picking w l) as Hrot.
    { intros w1 [H1 H2] Hr.
      assert (qlist w1 Queued = rev (ids ++ rest) ++ [id]) as Hs1 by (by rewrite H1).
      destruct (IH (rest ++ [id]) ready (w_move name w1 Queued Queued)) as (l&Hd&Hp).
      - rewrite (qlist_rotate name w1 _ id _ Hs1). rewrite bool_decide_true by done.
        cbn [rev]. by rewrite rev_involutive, app_assoc.
      - intros k j. rewrite stored_move, H2. apply Hk.
      - done.
      - exists (Turns id :: l). split.
        + unfold do. cbn [bind]. apply d_move; [by eapply made_turn|done].
        + eapply pk_turn; [|exact Hp]. eapply made_quiet; [done|]. by eapply made_turn. }
    assert (∃ l, does (bind (get_from_storage (M := M) id) (λ r, bind (match r with
       | Ok o => match o with
         | Some j => let! now := get_now in
            if is_ready j now && (length ready <? total)%nat && negb (existsb (λ rj, String.eqb (jid rj) (jid j)) ready)
            then let? j' := job_process j in
                 let? _ := do (QMove (qname Queued) (qname Running) 1 Back Front) in
                 pick_batch name total ids (ready ++ [j'])
            else let? _ := do (QMove (qname Queued) (qname Queued) 1 Back Front) in pick_batch name total ids ready
         | None => let? _ := do (QMove (qname Queued) (qname Queued) 1 Back Front) in pick_batch name total ids ready
         end
       | Err e => Ret (Err e) end) f)) w l ∧ picking w l) as (l&Hd&Hp).
    2:{ exists l. split; [|done]. exact Hd. }
    destruct (stored w id) as [j|] eqn:Ej.
    2:{ destruct (Hrot w) as (l&Hd&Hp); [done..|]. exists l. split; [|done]. apply does_get. by rewrite Ej. }
    pose proof (Hk _ _ Ej) as Hid.
    destruct (is_ready j (clock (reads w)) && (length ready <? total)%nat
      && negb (existsb (λ rj, String.eqb (jid rj) (jid j)) ready)) eqn:Eb.
    2:{ destruct (Hrot (w_tick w)) as (l&Hd&Hp); [done|cbn; lia|]. exists l. split; [|done]. apply does_get.
        rewrite Ej. unfold get_now, do at 1. cbn [bind]. apply d_now. rewrite Eb. exact Hd. }
    set (t := clock (S (reads w)) / 1000000). set (j' := as_running j t).
    set (w1 := w_put (w_tick (w_tick w)) j').
    set (w2 := w_send w1 (ChangeStatus (jid j') (jstatus (ctx j')))).
    assert (qlist w2 Queued = rev (ids ++ rest) ++ [id]) as Hs2.
    { unfold w2, w1. by rewrite qlist_send, qlist_put, !qlist_tick. }
    destruct (IH rest (ready ++ [j']) (w_move name w2 Queued Running)) as (l&Hd&Hp).
    - rewrite (qlist_pick name w2 _ id _ Hs2). by rewrite rev_involutive.
    - intros k x. rewrite stored_move. unfold w2, w1. rewrite stored_send, stored_put.
      destruct (bool_decide_reflect (k = jid j')) as [->|]; [by intros [= <-]|]. rewrite !stored_tick. apply Hk.
    - done.
    - exists (Writes j' :: Moves id :: l). split.
      + apply does_get. rewrite Ej. unfold get_now, do at 1. cbn [bind]. apply d_now. rewrite Eb.
        unfold job_process, get_now_as_ms, get_now, save_and_notify, upsert_to_storage, do. cbn [bind].
        apply d_now. cbn [bind]. apply (d_put j'). cbn [bind]. apply d_send. cbn [bind].
        apply d_move; [by eapply made_move|]. intros x. exact Hd.
      + apply andb_true_iff in Eb as [Eb _]. apply andb_true_iff in Eb as [Eb _].
        eapply (pk_pick _ _ w w1 (w_move name w2 Queued Running) id j (reads w) t l); try done.
        * by apply due_ready.
        * eapply made_quiet; [|apply made_put]. done.
        * apply (made_quiet _ w1 w2); [done|]. by eapply made_move.
  Qed.
  Lemma goes_loop {B} (f : _ → prog B) fuel total ready cursor w :
    keyed w → (∀ r w', goes (f r) w') →
    goes (bind (pick_loop prof name fuel total ready cursor) f) w.
  Proof.
    revert ready cursor w. induction fuel as [|fuel IH]; intros ready cursor w Hk Hf; [apply goes_diverge|].
    cbn [pick_loop]. unfold do at 1. cbn [bind]. apply goes_quiet; [done|].
    change (h (result (list string)) (QGet (qname Queued) BATCH Back) w)
      with (w, Ok (A := list string) (mem_get (st w) (qname Queued) BATCH Back)).
    cbn [snd]. rewrite mem_get_spec. cbn [from_end].
    change (ql (st w) (qname Queued)) with (qlist w Queued).
    destruct (i32_norm prof _) as [c'|]; [|apply goes_panic].
    assert (∀ p : prog (result (list (job M))), goes (bind (pick_batch name total (take BATCH (rev (qlist w Queued))) ready)
      (λ r, bind match r with
       | Ok ready' => if (total <=? length ready')%nat then Ret (Ok ready')
           else if c' <=? 0 then Ret (Ok ready') else pick_loop prof name fuel total ready' c'
       | Err e => Ret (Err e) end f)) w) as Hg.
    { intros _. eapply (goes_batch _ total _ (drop BATCH (rev (qlist w Queued)))); [by rewrite take_drop|done|].
      intros ready' w' Hk'. destruct (total <=? length ready')%nat; [apply Hf|].
      destruct (c' <=? 0); [apply Hf|]. by apply IH. }
    destruct (Hg Diverge) as (l&Hd&Hp). exists l. split; [|done].
    clear -Hd. revert Hd. generalize (pick_batch (M := M) name total (take BATCH (rev (qlist w Queued))) ready).
    intros p. revert w l. induction p as [x| | |X e k IH]; intros w l Hd; cbn [bind does] in *; try done.
    cbv zeta in *. destruct Hd as [[Hq Hd]|(c&l'&->&Hm&Hd)]; [left|right]; eauto 10.
  Qed.
  Lemma does_assoc {A B C} (p : prog A) (f : A → prog B) (g : B → prog C) w l :
    does (bind p (λ x, bind (f x) g)) w l → does (bind (bind p f) g) w l.
  Proof.
    revert w l. induction p as [x| | |X e k IH]; intros w l Hd; cbn [bind does] in *; try done.
    cbv zeta in *. destruct Hd as [[Hq Hd]|(c&l'&->&Hm&Hd)]; [left|right]; eauto 10.
  Qed.
  Lemma goes_process {B} c ts (f : _ → prog B) w :
    keyed w → (∀ r w', goes (f r) w') → goes (bind (process_jobs (M := M) prof name c ts) f) w.
  Proof.
    intros Hk Hf. unfold process_jobs.
    assert (∀ g : _ → prog B, (∀ r w', goes (g r) w') →
      goes (bind (pick_jobs_to_process (M := M) prof name (max_processing_jobs c)) g) w) as Hp.
    { intros g Hg. unfold pick_jobs_to_process, do. cbn [bind]. apply goes_quiet; [done|].
      change (h (result nat) (QCount (qname Running)) w)
        with (w, Ok (A := nat) (mem_count (st w) (qname Running))). cbn [snd].
      destruct (_ <=? _)%nat; [apply Hg|].
      unfold try_pick_specific_ready_jobs, do. cbn [bind]. apply goes_quiet; [done|].
      change (h (result nat) (QCount (qname Queued)) w)
        with (w, Ok (A := nat) (mem_count (st w) (qname Queued))). cbn [snd].
      by apply goes_loop. }
    edestruct Hp as (l&Hd&Hl); [|exists l; split; [apply does_assoc, Hd|exact Hl]].
    intros r w'. apply Hf.
  Qed.

  (** *** The end of an execution *)
  Lemma does_goes_on (j nj : job M) u w :
    goes_on sched (clock (reads w)) (clock (S (reads w))) j u nj →
    ∃ w0, quiet w w0 ∧ (reads w <= reads w0)%nat ∧
      ∀ l, does (re_enqueue name nj) w0 l → does (execute_tail prof sched name j u) w l.
  Proof.
    destruct 1 as [c m d Hr Hu Hm Hc Hd|c m d Hr Hu Hm Hc Hd|r r' t Hr Hu|jr e slot k cc f up Hr Ht Hs Hf Hk Hm He|jr e slot k cc f Hr Ht Hs Hf Hm He].
    - exists (w_tick w). split; [done|]. split; [cbn; lia|]. intros l H. unfold execute_tail. rewrite Hr, Hu. unfold call_retry_at.
      assert (should_retry (Retry c m (Interval d)) = true) as Hsh.
      { unfold should_retry. cbn. destruct m as [x|]; [|done]. apply Z.ltb_lt. by apply Hm. }
      rewrite Hsh. cbn [andb]. unfold get_now, do. cbn [bind]. apply d_now.
      unfold retry_retry_at. cbn [retried_times max_retries strat]. rewrite norm_in by lia. cbn [mbind option_bind].
      unfold dt_add. rewrite (proj2 (Z.leb_le _ _)), (proj2 (Z.leb_le _ _)) by lia. cbn [andb mbind option_bind bind].
      exact H.
    - exists (w_tick w). split; [done|]. split; [cbn; lia|]. intros l H. unfold execute_tail. rewrite Hr, Hu. unfold call_retry_at.
      assert (should_retry (Retry c m (ExponentialBackoff d)) = true) as Hsh.
      { unfold should_retry. cbn. destruct m as [x|]; [|done]. apply Z.ltb_lt. by apply Hm. }
      rewrite Hsh. cbn [andb]. unfold get_now, do. cbn [bind]. apply d_now.
      unfold retry_retry_at. cbn [retried_times max_retries strat]. rewrite norm_in by (unfold i32_min, i32_max; lia). cbn [mbind option_bind].
      unfold pow2_i32. rewrite Z.mod_small by lia. rewrite (proj2 (Z.leb_le _ _)) by lia. cbn [mbind option_bind].
      unfold dt_add. rewrite (proj2 (Z.leb_le dt_min _)), (proj2 (Z.leb_le _ dt_max)) by lia. cbn [andb mbind option_bind bind].
      exact H.
    - exists w. split; [done|]. split; [lia|]. intros l H. unfold execute_tail. rewrite Hr, Hu. exact H.
    - exists (w_tick (w_tick w)). split; [done|]. split; [cbn; lia|]. intros l H. rewrite (not_retried_tail prof sched name _ _ _ Hr).
      destruct (not_retried_same _ _ _ Hr) as (_ & _ & Ht' & Hdt). rewrite <-Ht' in Ht.
      unfold execute_finish, next_tick, get_now, do. cbn [bind]. apply d_now. rewrite Ht, Hs. cbn [bind].
      apply d_now. change (reads (w_tick w)) with (S (reads w)). rewrite Hf, norm_in by lia. rewrite <-Hdt in H.
      destruct (max_repeat cc) as [x|] eqn:Em.
      + rewrite (proj2 (Z.ltb_ge _ _)) by (by apply Hm).
        destruct (end_at cc) as [y|] eqn:Ee; [rewrite (proj2 (Z.ltb_ge _ _)) by (by apply He)|]; exact H.
      + destruct (end_at cc) as [y|] eqn:Ee; [rewrite (proj2 (Z.ltb_ge _ _)) by (by apply He)|]; exact H.
    - exists (w_tick (w_tick w)). split; [done|]. split; [cbn; lia|]. intros l H. rewrite (not_retried_tail prof sched name _ _ _ Hr).
      destruct (not_retried_same _ _ _ Hr) as (_ & _ & Ht' & Hdt). rewrite <-Ht' in Ht.
      unfold execute_finish, next_tick, get_now, do. cbn [bind]. apply d_now. rewrite Ht, Hs. cbn [bind].
      apply d_now. change (reads (w_tick w)) with (S (reads w)). rewrite Hf.
      destruct (max_repeat cc) as [x|] eqn:Em.
      + rewrite (proj2 (Z.ltb_ge _ _)) by (by apply Hm).
        destruct (end_at cc) as [y|] eqn:Ee; [rewrite (proj2 (Z.ltb_ge _ _)) by (by apply He)|]; exact H.
      + destruct (end_at cc) as [y|] eqn:Ee; [rewrite (proj2 (Z.ltb_ge _ _)) by (by apply He)|]; exact H.
  Qed.
  Lemma does_ends (j jr : job M) u w :
    ends sched (clock (reads w)) j u jr →
    ∃ w0, quiet w w0 ∧ (reads w <= reads w0)%nat ∧
      ∀ l, does (if ur_failed u then mark_job_is_failed name jr else mark_job_is_finished name jr) w0 l →
        does (execute_tail prof sched name j u) w l.
  Proof.
    intros [Hr Hc]. rewrite (not_retried_tail prof sched name _ _ _ Hr). destruct (not_retried_same _ _ _ Hr) as (_ & _ & Ht' & _).
    rewrite <-Ht' in Hc. unfold execute_finish, next_tick, get_now, do. cbn [bind].
    destruct (jtype (ctx jr)) as [|t|e slot k cc].
    1,2: exists (w_tick w); split; [done|]; split; [cbn; lia|]; intros l H; apply d_now; exact H.
    destruct (sched e) as [f|] eqn:Es.
    2:{ exists (w_tick w). split; [done|]. split; [cbn; lia|]. intros l H. apply d_now. exact H. }
    destruct (Hc e slot k cc eq_refl) as [Hk He]; [by rewrite Es|].
    exists (w_tick (w_tick w)). split; [done|]. split; [cbn; lia|]. intros l H. apply d_now. cbn [bind do]. apply d_now.
    rewrite norm_in by lia.
    destruct He as [(x & Hx & Hl)|(x & Hx & Hl)].
    - rewrite Hx, (proj2 (Z.ltb_lt _ _)) by done. destruct (f _); exact H.
    - rewrite Hx, (proj2 (Z.ltb_lt x _)) by done. destruct (f _), (match max_repeat cc with Some m => m <? k | None => false end); exact H.
  Qed.
  (** The run answers Ok: the job is not settled a second time. *)
  Lemma does_tail (orig j : job M) u w l :
    does (execute_tail prof sched name j u) w l → does (task_tail prof sched name orig j u) w l.
  Proof.
    intros Hd. unfold task_tail.
    assert ((∃ w', run h (execute_tail prof sched name j u) w = (w', Done (Ok tt))) ∨
      ∀ a, (run h (execute_tail prof sched name j u) w).2 ≠ Done a) as [[w' Hr]|Hr].
    { assert (run h (execute_tail prof sched name j u) w =
        (do_tail prof sched name clock w j u, match snd (judge prof sched clock (reads w) j u) with VPanic => Panicked | _ => Done (Ok tt) end)) as Hx.
      { unfold do_tail, execute_tail, judge. destruct (jretry (ctx j)) as [r|].
        - rewrite run_bind. unfold call_retry_at, retry_of.
          destruct (ur_retry u) as [b|r' [t|]].
          + destruct (b && should_retry r).
            * cbn [run bind]. rewrite run_bind. cbn.
              destruct (retry_retry_at prof r (clock (reads w))) as [[r' t]|]; cbn; [|done]. done.
            * cbn [run]. rewrite run_execute_finish. destruct w; done.
          + cbn [run]. rewrite run_re_enqueue. destruct w; done.
          + cbn [run]. rewrite run_execute_finish. destruct w; done.
        - rewrite run_execute_finish. done. }
      rewrite Hx. destruct (judge prof sched clock (reads w) j u).2; cbn; eauto. }
    - rewrite <-(app_nil_r l). eapply does_bind; [exact Hr|exact Hd|done].
    - clear -Hd Hr. revert Hd Hr. generalize (execute_tail prof sched name j u). intros p.
      revert w l. induction p as [x| | |X e k IH]; intros w l Hd Hr; cbn [bind does run] in *; try done.
      { by edestruct Hr. }
      cbv zeta in *. destruct (h X e w) as [w1 x]. cbn [fst snd] in *.
      destruct Hd as [[Hq Hd]|(c&l'&->&Hm&Hd)]; [left|right]; eauto 10.
  Qed.

  (** *** Steps *)
  Lemma does_event (s : sys) e :
    sound s → numbers_fit clock s e → calm e → e ≠ EvStart →
    ∃ l, writes sched name clock s e l ∧ does (ev_prog prof sched name (cfg s) (tasks s) e) (sw s) l.
  Proof.
    intros (Hal&Hk&Ht) Hfit Hc He.
    assert (∀ A B (p : prog A) (f : A → prog B) l, (∀ a, ∃ b, f a = Ret b) → does p (sw s) l → does (bind p f) (sw s) l) as Hret.
    { intros A B p f l Hf. apply does_bind_ret. intros a w'. by destruct (Hf a) as [b ->]. }
    destruct e as [j c|id|id|id|c| |i u| | |e n|]; cbn [ev_prog]; try done.
    - eexists. split; [|apply Hret; [eauto|apply does_submit]].
      destruct (stored (sw s) (jid j)) as [ex|] eqn:Ex; [by eapply ws_known|by eapply ws_new].
    - eexists. split; [|apply Hret; [eauto|apply does_cancel; intros j; apply Hk]].
      destruct (stored (sw s) id) as [j|] eqn:Ej; [|apply ws_cancel_no; congruence].
      destruct (is_queued j) eqn:Eq.
      + eapply ws_cancel; [done..|]. unfold is_queued in Eq. by destruct (jstatus (ctx j)).
      + apply ws_cancel_no. intros j'. rewrite Ej. intros [= <-]. unfold is_queued in Eq. by destruct (jstatus (ctx j)).
    - exists []. split; [constructor|]. apply Hret; [eauto|]. unfold get_job, get_from_storage, do. cbn [bind]. by left.
    - eexists. split; [|apply Hret; [eauto|apply does_retry; intros j; apply Hk]].
      destruct (stored (sw s) id) as [j|] eqn:Ej; [|apply ws_retry_no; congruence].
      destruct (is_done j) eqn:Eq.
      + eapply ws_retry; [done..|]. by apply is_done_iff.
      + apply ws_retry_no. intros j'. rewrite Ej. intros [= <-]. rewrite <-is_done_iff. congruence.
    - exists []. split; [constructor|done].
    - destruct (goes_process (cfg s) (tasks s) (λ ts', Ret (cfg s, ts', ([] : list (job M)), RNone (M := M))) (sw s)) as (l&Hd&Hp);
        [exact Hk|intros; apply goes_ret|].
      exists l. split; [by constructor|exact Hd].
    - destruct (tasks s !! i) as [t|] eqn:Ei.
      2:{ exists []. split; [apply ws_poll; congruence|done]. }
      destruct (Ht t) as [Hid Hst]; [by eapply elem_of_list_lookup_2|].
      destruct t as [orig j ph]. cbn [t_job t_orig] in *.
      assert (∀ l, does (task_step prof sched name (Task orig j ph) u) (sw s) l →
        does (let! '(o, js) := task_step prof sched name (Task orig j ph) u in
          Ret (cfg s, match o with Some t' => <[i := t']> (tasks s) | None => delete i (tasks s) end, js, RNone (M := M))) (sw s) l) as Hb.
      { intros l. apply Hret. intros [o js]. eauto. }
      assert (ph ≠ AfterHook → writes sched name clock s (EvTask i u) []) as Hearly.
      { intros Hph. apply ws_poll. rewrite Ei. by intros t [= <-]. }
      destruct ph.
      + exists []. split; [by apply Hearly|]. apply Hb. unfold task_step. cbn [t_phase t_job].
        assert (is_cancelled j = false) as -> by (unfold is_cancelled; by rewrite Hst).
        unfold plugin_before, do. cbn [bind]. by left.
      + exists []. split; [by apply Hearly|]. apply Hb. done.
      + exists []. split; [by apply Hearly|]. apply Hb. unfold task_step, plugin_after, do. cbn [t_phase bind]. by left.
      + pose proof (Hfit i u orig j eq_refl Ei) as Hin.
        destruct (ends_or_goes_on sched (clock (reads (sw s))) (clock (S (reads (sw s)))) j u Hin) as [[nj Hg]|[jr Hg]].
        * destruct (does_goes_on j nj u (sw s) Hg) as (w0&Hq&Hr&Hd).
          eexists. split; [eapply (ws_again _ _ _ _ _ _ _ _ nj (reads w0)); [exact Hr|reflexivity|exact Ei|exact Hg]|].
          apply Hb. unfold task_step. cbn [t_phase t_job t_orig]. apply Hret; [eauto|].
          apply does_tail, Hd. pose proof (does_re_enqueue nj w0) as HH.
          rewrite (goes_on_jid _ _ _ _ _ _ Hg), (goes_on_status _ _ _ _ _ _ Hg), Hst in HH. exact HH.
        * destruct (does_ends j jr u (sw s) Hg) as (w0&Hq&Hr&Hd).
          destruct (not_retried_same _ _ _ (proj1 Hg)) as (Hjr&_).
          destruct (ur_failed u) eqn:Eu.
          -- eexists. split; [eapply (ws_failed _ _ _ _ _ _ _ _ jr (reads w0)); [exact Hr|reflexivity|exact Ei|exact Hg|exact Eu]|].
             apply Hb. unfold task_step. cbn [t_phase t_job t_orig]. apply Hret; [eauto|].
             apply does_tail, Hd. rewrite <-Hjr. apply does_failed.
          -- eexists. split; [eapply (ws_finished _ _ _ _ _ _ _ _ jr (reads w0)); [exact Hr|reflexivity|exact Ei|exact Hg|exact Eu]|].
             apply Hb. unfold task_step. cbn [t_phase t_job t_orig]. apply Hret; [eauto|].
             apply does_tail, Hd. rewrite <-Hjr. apply does_finished.
  Qed.
  Lemma cut_step (s : sys) e :
    sound s → numbers_fit clock s e → calm e → e ≠ EvStart →
    ∃ l, writes sched name clock s e l ∧
      (∀ n, ∃ m, (m <= length l)%nat ∧ made_all (take m l) (sw s) (sw (step s (EvCrashIn e n)).1)) ∧
      (∀ m, (m <= length l)%nat → ∃ n, made_all (take m l) (sw s) (sw (step s (EvCrashIn e n)).1)) ∧
      made_all l (sw s) (sw (step s e).1).
  Proof.
    intros Hs Hf Hc He. destruct (does_event s e Hs Hf Hc He) as (l&Hw&Hd). exists l. split; [done|].
    destruct Hs as (Hal&_).
    assert (∀ n, sw (step s (EvCrashIn e n)).1 = run_n h n (ev_prog prof sched name (cfg s) (tasks s) e) (sw s)) as Hn.
    { intros n. unfold sys_step. rewrite Hal. destruct e; done. }
    assert (sw (step s e).1 = (run h (ev_prog prof sched name (cfg s) (tasks s) e) (sw s)).1) as Hall.
    { assert ((step s e) = commit prof sched name h s e) as ->.
      { unfold sys_step. rewrite Hal. destruct e; done. }
      unfold commit. destruct (run h _ _) as [w' [[[[c ts] js] r]| |]]; done. }
    rewrite Hall. split; [|split; [|by apply does_all]].
    - intros n. rewrite Hn. by apply does_cut.
    - intros m Hm. destruct (does_reach _ _ _ m Hd Hm) as [n H]. exists n. by rewrite Hn.
  Qed.
  Lemma cut_start (s : sys) :
    alive s = false → (∀ id j, stored (sw s) id = Some j → jid j = id) →
    ∃ l, picking (sw s) l ∧
      (∀ n, ∃ m, (m <= length l)%nat ∧ made_all (take m l) (sw s) (sw (step s (EvCrashIn EvStart n)).1)) ∧
      (∀ m, (m <= length l)%nat → ∃ n, made_all (take m l) (sw s) (sw (step s (EvCrashIn EvStart n)).1)) ∧
      made_all l (sw s) (sw (step s EvStart).1).
  Proof.
    intros Hal Hk.
    destruct (goes_process wq_config_default [] (λ ts', Ret (wq_config_default, ts', ([] : list (job M)), RNone (M := M))) (sw s)) as (l&Hd&Hp);
      [exact Hk|intros; apply goes_ret|].
    exists l. split; [done|].
    assert (sw (step s EvStart).1 = (run h (ev_prog prof sched name (cfg s) (tasks s) EvStart) (sw s)).1) as Hall.
    { unfold sys_step. rewrite Hal. unfold commit. destruct (run h _ _) as [w' [[[[c ts] js] r]| |]]; done. }
    rewrite Hall. split; [|split; [|by apply (does_all _ _ _ Hd)]].
    - intros n. unfold sys_step. rewrite Hal. by apply (does_cut n _ _ _ Hd).
    - intros m Hm. unfold sys_step. rewrite Hal. by apply (does_reach _ _ _ _ Hd).
  Qed.

  (** *** Waiting ids *)
  Lemma filter_in (l : list string) id x : id ∈ l → x ≠ id → id ∈ filter (λ y, y ≠ x) l.
  Proof. intros H1 H2. by apply elem_of_list_filter. Qed.
  Lemma stays_queued (l : list (change M)) w w' id :
    Forall (λ c, match c with Takes s x => s = Queued → x ≠ id | Moves _ => False | _ => True end) l →
    made_all l w w' → id ∈ qlist w Queued → id ∈ qlist w' Queued.
  Proof.
    intros Hf. revert w. induction Hf as [|c l Hc _ IH]; intros w; cbn [SpecCut.made_all].
    - intros [H _]. by rewrite H.
    - intros (w1&Hm&Hl) Hin. apply (IH w1 Hl). destruct c as [s x|s x|j|x|x]; cbn [SpecCut.made] in Hm.
      + destruct Hm as (H1&H2&_). destruct (decide (s = Queued)) as [->|Hs]; [rewrite H1; by right|by rewrite H2].
      + destruct Hm as (H1&H2&_). destruct (decide (s = Queued)) as [->|Hs]; [rewrite H1; apply filter_in; auto|by rewrite H2].
      + destruct Hm as (H1&_). by rewrite H1.
      + destruct Hm as ((q&H1&H2)&_). rewrite H2. rewrite H1 in Hin. set_solver.
      + done.
  Qed.
  Lemma stays_somewhere (l : list (change M)) w w' id :
    Forall (λ c, match c with Takes s x => False | _ => True end) l →
    made_all l w w' → id ∈ qlist w Queued ∨ id ∈ qlist w Running → id ∈ qlist w' Queued ∨ id ∈ qlist w' Running.
  Proof.
    intros Hf. revert w. induction Hf as [|c l Hc _ IH]; intros w; cbn [SpecCut.made_all].
    - intros [H _]. by rewrite !H.
    - intros (w1&Hm&Hl) Hin. apply (IH w1 Hl). destruct c as [s x|s x|j|x|x]; cbn [SpecCut.made] in Hm.
      + destruct Hm as (H1&H2&_).
        destruct (decide (s = Queued)) as [->|Hs]; [rewrite H1, (H2 Running) by done; set_solver|].
        rewrite (H2 Queued) by done.
        destruct (decide (s = Running)) as [->|Hs']; [rewrite H1; set_solver|]. by rewrite (H2 Running) by done.
      + done.
      + destruct Hm as (H1&_). by rewrite !H1.
      + destruct Hm as ((q&H1&H2)&H3&_). rewrite H2, H3 by done. rewrite H1 in Hin. set_solver.
      + destruct Hm as ((q&H1&H2)&H3&_). rewrite H2, H3. rewrite H1 in Hin. set_solver.
  Qed.
  Lemma picking_shape w l : picking w l → Forall (λ c : change M, match c with Takes s x => False | _ => True end) l.
  Proof. induction 1; repeat constructor; done. Qed.
  Lemma waiting_kept (s : sys) e n id :
    sound s → numbers_fit clock s e → calm e → e ≠ EvStart → e ≠ EvCancel id →
    id ∈ qlist (sw s) Queued →
    let w' := sw (step s (EvCrashIn e n)).1 in
    id ∈ qlist w' Queued ∨ e = EvTick ∧ id ∈ qlist w' Running.
  Proof.
    intros Hs Hf Hc He Hnc Hin. destruct (cut_step s e Hs Hf Hc He) as (l&Hw&Hn&_). cbv zeta.
    destruct (Hn n) as (m&_&Hm). clear Hn.
    assert (e = EvTick ∨ e ≠ EvTick) as [->|Hne] by (destruct e; (by left) || by right).
    - inversion Hw as [| | | | | | | |l' Hp| | | |]; subst l'.
      edestruct stays_somewhere as [H|H]; [apply Forall_take, (picking_shape _ _ Hp)|exact Hm|by left|by left|by right].
    - left. eapply stays_queued; [|exact Hm|exact Hin]. apply Forall_take. clear Hm m.
      destruct Hw; try (repeat constructor; done).
      + destruct (override_data c && _), (re_run c && _); repeat constructor; done.
      + repeat constructor. intros _ ->. congruence.
      + repeat constructor. intros Hst. rewrite Hst in *. unfold done_status in *. naive_solver.
  Qed.

  (** *** Jobs that are stored as running and are in no list *)
  Lemma limbo (s : sys) i u (orig j r : job M) :
    sound s → in_range (clock (reads (sw s))) j → tasks s !! i = Some (Task orig j AfterHook) →
    stored (sw s) (jid j) = Some r → jstatus (ctx r) = Running → jid j ∉ qlist (sw s) Queued →
    ur_failed u = false ∨ (∃ nj, goes_on sched (clock (reads (sw s))) (clock (S (reads (sw s)))) j u nj) →
    ∃ n, let s' := (step s (EvCrashIn (EvTask i u) n)).1 in
      jid j ∉ qlist (sw s') Queued ∧ jid j ∉ qlist (sw s') Running ∧
      ∀ es, let z := sys_run prof sched name h s' es in
        stored (sw z) (jid j) = Some r ∧ jid j ∉ qlist (sw z) Queued ∧ runs_of (jid j) z = runs_of (jid j) s.
  Proof.
    intros Hs Hin Hi Hr Hst Hq Hu.
    destruct (cut_step s (EvTask i u)) as (l&Hw&_&Hm&_); [done| |done|done|].
    { intros i' u' orig' j' [= -> ->]. rewrite Hi. by intros [= -> ->]. }
    assert (∃ l', l = Takes Running (jid j) :: l') as [l' ->].
    { remember (EvTask i u) as ev eqn:Ev. destruct Hw; try done; injection Ev as -> ->.
      - rewrite Hi in *. naive_solver.
      - rewrite Hi in *. naive_solver.
      - rewrite Hi in *. naive_solver.
      - rewrite Hi in *. simplify_eq. destruct Hu as [Hu|[nj Hu]]; [congruence|].
        destruct (every_end sched (clock (reads (sw s))) (clock (S (reads (sw s)))) j0 u Hin) as [_ Hno].
        exfalso. eauto. }
    destruct (Hm 1%nat) as [n Hn]; [cbn; lia|]. exists n. cbn [take SpecCut.made_all] in Hn.
    destruct Hn as (w1&(H1&H2&H3)&H4&H5). unfold same_lists, same_records in *.
    set (s' := (step s (EvCrashIn (EvTask i u) n)).1) in *. cbv zeta.
    assert (jid j ∉ qlist (sw s') Queued) as Hq'. { by rewrite H4, H2. }
    split; [done|]. split; [rewrite H4, H1, elem_of_list_filter; naive_solver|].
    assert (tasks s' = [] ∧ runs s' = runs s) as [Ht Hruns].
    { unfold s', sys_step. destruct Hs as (->&_). done. }
    intros es. destruct (limbo_stays prof sched name clock False s' (jid j) r es) as (E1&E2&_&E3); try done.
    - intros k j'. rewrite H5, H3. apply Hs.
    - by rewrite H5, H3.
    - rewrite Ht. intros t Hin'. by apply elem_of_nil in Hin'.
    - split; [done|]. split; [done|]. etransitivity; [exact E2|]. unfold runs_of. by rewrite Hruns.
  Qed.
  (** A failure is written first: after a cut it is not done, or it is on record. *)
  Lemma failure_first (s : sys) i u (orig j jr : job M) n :
    sound s → in_range (clock (reads (sw s))) j → tasks s !! i = Some (Task orig j AfterHook) →
    ends sched (clock (reads (sw s))) j u jr → ur_failed u = true →
    let w' := sw (step s (EvCrashIn (EvTask i u) n)).1 in
    (∀ st, qlist w' st = qlist (sw s) st) ∧ stored w' (jid j) = stored (sw s) (jid j) ∨
    ∃ j', stored w' (jid j) = Some j' ∧ jstatus (ctx j') = Failed.
  Proof.
    intros Hs Hin Hi He Hu.
    destruct (cut_step s (EvTask i u)) as (l&Hw&Hn&_); [done| |done|done|].
    { intros i' u' orig' j' [= -> ->]. rewrite Hi. by intros [= -> ->]. }
    assert (∃ x t, jid x = jid j ∧ l = [Writes (as_settled Failed x t); Takes Running (jid j); Adds Failed (jid j)]) as (x&t&Hx&->).
    { remember (EvTask i u) as ev eqn:Ev. destruct Hw; try done; injection Ev as -> ->.
      - rewrite Hi in *. naive_solver.
      - rewrite Hi in *. simplify_eq.
        destruct (every_end sched (clock (reads (sw s))) (clock (S (reads (sw s)))) j0 u Hin) as [_ Hno].
        exfalso. eauto.
      - congruence.
      - rewrite Hi in *. simplify_eq. eexists _, _. split; [|reflexivity].
        match goal with H : ends _ _ _ _ jr0 |- _ => by destruct (not_retried_same _ _ _ (proj1 H)) as (?&_) end. }
    destruct (Hn n) as (m&Hm&Hp). cbv zeta. set (w' := sw (step s (EvCrashIn (EvTask i u) n)).1) in *.
    assert (∀ w1 w2, stored w2 (jid j) = stored w1 (jid j) → made (Writes (as_settled Failed x t)) (sw s) w1 →
      ∃ j', stored w2 (jid j) = Some j' ∧ jstatus (ctx j') = Failed) as Hrec.
    { intros w1 w2 E (_&(j'&Hb&Hj')&_). exists j'. rewrite E, <-Hx. split; [exact Hj'|].
      by destruct Hb as (_&_&_&?&_). }
    destruct m as [|[|[|[|m]]]]; [..|cbn in Hm; lia]; cbn [take SpecCut.made_all] in Hp.
    - left. destruct Hp as [H1 H2]. split; [exact H1|apply H2].
    - right. destruct Hp as (w1&H1&H2&H3). eapply (Hrec w1); [apply H3|done].
    - right. destruct Hp as (w1&H1&w2&(_&_&H2)&_&H3). eapply (Hrec w1); [by rewrite (H3 _), (H2 _)|done].
    - right. destruct Hp as (w1&H1&w2&(_&_&H2)&w3&(_&_&H3)&_&H4). eapply (Hrec w1); [by rewrite (H4 _), (H3 _), (H2 _)|done].
  Qed.
End cut.
