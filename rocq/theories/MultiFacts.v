(** Several queues on one backend: non-interference. *)
From Verif Require Import SpecMulti JsonFacts BackendFacts RedisFacts SubmitFacts WorldFacts.

(** *** Histories as programs *)
Lemma run_bind' {W A B} (h : handler W) (p : prog A) (f : A → prog B) w :
  run h (bind p f) w =
  match run h p w with
  | (w', Done a) => run h (f a) w'
  | (w', Panicked) => (w', Panicked)
  | (w', Diverged) => (w', Diverged)
  end.
Proof.
  revert w. induction p as [a| | |X e k IH]; intros w; cbn; try done.
  destruct (h X e w) as [w' x]. apply IH.
Qed.
Lemma run_catch {W A} (h : handler W) (p : prog A) w :
  run h (catch p) w = ((run h p w).1, Done (run h p w).2).
Proof.
  revert w. induction p as [a| | |X e k IH]; intros w; cbn; try done.
  destruct (h X e w) as [w' x]. apply IH.
Qed.
Lemma run_cut {W A} (h : handler W) n (p : prog A) w :
  run h (cut n p) w = (run_n h n p w, Done tt).
Proof.
  revert p w. induction n as [|n IH]; intros p w; [by destruct p|].
  destruct p as [a| | |X e k]; cbn; try done. destruct (h X e w) as [w' x]. apply IH.
Qed.

Section hist.
  Context {M : Type} `{SM : Serde M}.
  Context (prof : profile).
  Context (sched : string → option (time → option time)).
  Context (name : string).
  Context {W : Type} (h : handler W).

  Lemma run_commit (s : sys W M) e :
    run h (commit_prog prof sched name (own_state s) e) (sw s) =
    (sw (commit prof sched name h s e).1,
     Done (own_state (commit prof sched name h s e).1, (commit prof sched name h s e).2)).
  Proof.
    unfold commit_prog, commit. rewrite run_bind', run_catch. cbn [own_state cfg tasks runs].
    destruct (run h (ev_prog prof sched name (cfg s) (tasks s) e) (sw s)) as [w [[[[c ts] js] r]| |]]; done.
  Qed.
  Lemma run_step (s : sys W M) e :
    run h (step_prog prof sched name (own_state s) e) (sw s) =
    (sw (sys_step prof sched name h s e).1,
     Done (own_state (sys_step prof sched name h s e).1, (sys_step prof sched name h s e).2)).
  Proof.
    unfold step_prog, sys_step. cbn [own_state alive]. destruct (alive s) eqn:Ea.
    - destruct e as [| | | | | | | | |e' n|]; try exact (run_commit s _); try reflexivity; try (unfold own_state; rewrite Ea; done).
      rewrite run_bind'.
      destruct e'; try (rewrite (run_cut h n (ev_prog prof sched name (cfg s) (tasks s) _)); done). done.
    - destruct e as [| | | | | | | | |e' n|]; try exact (run_commit s _); try reflexivity; try (unfold own_state; rewrite Ea; done).
      destruct e'; try reflexivity; try (unfold own_state; rewrite Ea; done).
      rewrite run_bind'. cbn [own_state cfg tasks]. rewrite run_cut. done.
  Qed.
  Lemma run_hist es (s : sys W M) :
    run h (hist_prog prof sched name (own_state s) es) (sw s) =
    (sw (sys_run prof sched name h s es),
     Done (own_state (sys_run prof sched name h s es), (responses prof sched name h s es))).
  Proof.
    revert s. induction es as [|e es IH]; intros s; [done|].
    cbn [hist_prog]. rewrite run_bind', run_step.
    change (sys_run prof sched name h s (e :: es)) with (sys_run prof sched name h (sys_step prof sched name h s e).1 es).
    cbn [responses]. destruct (sys_step prof sched name h s e) as [s' r]. cbn [fst snd].
    rewrite run_bind', IH. done.
  Qed.
End hist.

(** *** Footprints *)
Section conf.
  Context {M : Type} `{SM : Serde M}.
  Context (L K : string → Prop).

  Definition good_value (v : value) : Prop :=
    ∀ js (j : job M), v = Some js → dec_job js = Some j → K (jid j).
  Definition within {X : Set} (e : eff X) : Prop :=
    match e with
    | QPush q it => L q ∧ K it
    | QMove f t _ _ _ => L f ∧ L t
    | QRemove q _ | QGet q _ _ | QCount q => L q
    | SUpsert h k v => h = STORAGE_HASH ∧ K k ∧ good_value v
    | SGet h k => h = STORAGE_HASH ∧ K k
    | _ => True
    end.
  Definition sound {X : Set} (e : eff X) : X → Prop :=
    match e in eff X return X → Prop with
    | QMove _ _ _ _ _ | QGet _ _ _ => λ r, match r with Ok l => Forall K l | Err _ => True end
    | SGet _ _ => λ r, match r with Ok (Some v) => good_value v | _ => True end
    | _ => λ _, True
    end.
  (** The program touches only lists in L and records in K, and its result satisfies Q. *)
  Fixpoint conf {A} (p : prog A) (Q : A → Prop) : Prop :=
    match p with
    | Ret a => Q a
    | Panic | Diverge => True
    | Eff e k => within e ∧ ∀ x, sound e x → conf (k x) Q
    end.

  Lemma conf_mono {A} (p : prog A) (Q Q' : A → Prop) : (∀ a, Q a → Q' a) → conf p Q → conf p Q'.
  Proof.
    intros H. induction p as [a| | |X e k IH]; cbn; auto. intros [H1 H2]. split; [done|]. intros x Hx. by apply IH, H2.
  Qed.
  Lemma conf_bind {A B} (p : prog A) (f : A → prog B) (Q : B → Prop) :
    conf p (λ a, conf (f a) Q) → conf (bind p f) Q.
  Proof.
    induction p as [a| | |X e k IH]; cbn; auto. intros [H1 H2]. split; [done|]. intros x Hx. by apply IH, H2.
  Qed.
  Lemma conf_do {X : Set} (e : eff X) (Q : X → Prop) : within e → (∀ x, sound e x → Q x) → conf (do e) Q.
  Proof. done. Qed.
  Lemma conf_catch {A} (p : prog A) (Q : A → Prop) :
    conf p Q → conf (catch p) (λ o, match o with Done a => Q a | _ => True end).
  Proof. induction p as [a| | |X e k IH]; cbn; auto. intros [H1 H2]. split; [done|]. intros x Hx. by apply IH, H2. Qed.
  Lemma conf_cut {A} n (p : prog A) (Q : A → Prop) : conf p Q → conf (cut n p) (λ _, True).
  Proof.
    revert p. induction n as [|n IH]; intros p; [by destruct p|]. destruct p as [| | |X e k]; cbn; auto.
    intros [H1 H2]. split; [done|]. intros x Hx. by apply IH, H2.
  Qed.

  Lemma good_enc (j : job M) : K (jid j) → good_value (enc_job j).
  Proof.
    intros H js j' E1 E2. unfold enc_job in E1. destruct (ser (data j)) as [d|]; [|done].
    cbn -[enc_context] in E1. injection E1 as <-. unfold dec_job in E2. cbn -[dec_context enc_context] in E2.
    rewrite dec_enc_context in E2. cbn -[dec_context enc_context] in E2.
    destruct (de d) as [d'|] in E2; [|done]. by injection E2 as <-.
  Qed.
End conf.

Section queue_conf.
  Context {M : Type} `{SM : Serde M}.
  Context (prof : profile).
  Context (sched : string → option (time → option time)).
  Context (name : string).
  Context (K : string → Prop).
  Definition lists_of (q : string) : Prop := ∃ s, q = format_queue_name name s.
  Notation conf := (conf (M := M) lists_of K).

  Lemma lists_ok s : lists_of (format_queue_name name s).
  Proof. by exists s. Qed.
  Hint Resolve lists_ok : core.

  Definition kj (j : job M) : Prop := K (jid j).
  Definition kr (r : result (job M)) : Prop := match r with Ok j => kj j | Err _ => True end.

  Lemma conf_now (Q : time → Prop) : (∀ t, Q t) → conf get_now_as_ms Q.
  Proof. intros H. split; [done|]. intros x _. apply H. Qed.
  Lemma conf_save j : kj j → conf (save_and_notify j) kr.
  Proof.
    intros H. unfold save_and_notify, upsert_to_storage. apply conf_bind, conf_do.
    { split; [done|]. split; [done|]. by apply good_enc. }
    intros [u|e] _; [|done]. split; [done|]. by intros x _.
  Qed.
  Lemma conf_job_enqueue j : kj j → conf (job_enqueue j) kr.
  Proof. intros H. apply conf_bind, conf_now. intros t. by apply conf_save. Qed.
  Lemma conf_job_process j : kj j → conf (job_process j) kr.
  Proof. intros H. apply conf_bind, conf_now. intros t. by apply conf_save. Qed.
  Lemma conf_job_finish j : kj j → conf (job_finish j) kr.
  Proof. intros H. apply conf_bind, conf_now. intros t. by apply conf_save. Qed.
  Lemma conf_job_cancel j : kj j → conf (job_cancel j) kr.
  Proof. intros H. apply conf_bind, conf_now. intros t. by apply conf_save. Qed.
  Lemma conf_job_fail j : kj j → conf (job_fail j) kr.
  Proof. intros H. apply conf_bind, conf_now. intros t. by apply conf_save. Qed.
  Definition ko (r : result (option (job M))) : Prop := match r with Ok (Some j) => kj j | _ => True end.
  Lemma conf_get id : K id → conf (get_from_storage (M := M) id) ko.
  Proof.
    intros H. unfold get_from_storage. apply conf_bind, conf_do; [done|].
    intros r Hr. cbn in *. destruct r as [[[js|]|]|e]; try done.
    destruct (dec_job js) eqn:E; [|done]. by eapply Hr.
  Qed.
  Definition T {A : Type} (_ : A) : Prop := True.
  Lemma conf_enqueue j : kj j → conf (enqueue name j) T.
  Proof.
    intros H. unfold enqueue. apply conf_bind, conf_do; [done|]. intros [u|e] _; [|done].
    apply conf_bind. eapply conf_mono; [|by apply conf_job_enqueue]. by intros [u'|e] _.
  Qed.
  Lemma conf_re_enqueue j : kj j → conf (re_enqueue name j) T.
  Proof.
    intros H. unfold re_enqueue. apply conf_bind, conf_do; [apply lists_ok|]. intros [u|e] _; [|done].
    apply conf_bind. eapply conf_mono; [|by apply conf_job_enqueue]. intros [j'|e] Hj; [|done].
    apply conf_bind, conf_do; [done|]. done.
  Qed.
  Lemma conf_run j c : kj j → conf (run_with_config name j c) T.
  Proof.
    intros H. unfold run_with_config. apply conf_bind. eapply conf_mono; [|by apply conf_get].
    intros [[ex|]|e] _; [| |done].
    - apply conf_bind. apply (conf_mono _ _ _ T).
      + intros [u|e] _; [|done]. destruct (re_run c && is_done ex); [|done].
        apply conf_bind. eapply conf_mono; [|by apply conf_enqueue]. by intros [u'|e] _.
      + destruct (override_data c && negb (is_running ex)); [|done].
        apply conf_do; [|done]. split; [done|]. split; [done|]. by apply good_enc.
    - by apply conf_enqueue.
  Qed.
  Lemma conf_finished j : kj j → conf (mark_job_is_finished name j) T.
  Proof.
    intros H. unfold mark_job_is_finished, remove_processing_job. apply conf_bind, conf_bind, conf_do; [apply lists_ok|].
    intros _ _. apply conf_bind. eapply conf_mono; [|by apply conf_job_finish]. intros [j'|e] Hj; [|done].
    apply conf_bind, conf_do; done.
  Qed.
  Lemma conf_failed j : kj j → conf (mark_job_is_failed name j) T.
  Proof.
    intros H. unfold mark_job_is_failed, push_failed_job, remove_processing_job. apply conf_bind.
    eapply conf_mono; [|by apply conf_job_fail]. intros [j'|e] Hj; [|done].
    apply conf_bind, conf_bind, conf_bind, conf_do; [apply lists_ok|]. intros _ _.
    apply conf_bind, conf_do; done.
  Qed.
  Lemma conf_next_tick j : kj j → conf (next_tick prof sched j) (λ o, match o with Some j' => kj j' | None => True end).
  Proof.
    intros H. unfold next_tick. apply conf_bind, conf_do; [done|]. intros now _.
    destruct (jtype (ctx j)) as [| |expr slot total cc]; try done.
    destruct (sched expr) as [after|]; [|done]. apply conf_bind, conf_do; [done|]. intros now2 _. cbv zeta.
    destruct (after now2) as [up|].
    - destruct (i32_norm prof (total + 1)); [|done].
      destruct (match max_repeat cc with Some m => m <? total | None => false end); [done|].
      by destruct (match end_at cc with Some e => e <? now | None => false end).
    - destruct (match max_repeat cc with Some m => m <? total | None => false end); [done|].
      by destruct (match end_at cc with Some e => e <? now | None => false end).
  Qed.
  Lemma conf_pick_batch total ids ready :
    Forall K ids → Forall kj ready →
    conf (pick_batch name total ids ready) (λ r, match r with Ok js => Forall kj js | Err _ => True end).
  Proof.
    intros Hids. revert ready. induction Hids as [|id ids Hid Hids IH]; intros ready Hr; cbn [pick_batch]; [done|].
    assert (conf (let? _ := do (QMove (format_queue_name name Queued) (format_queue_name name Queued) 1 Back Front) in
      pick_batch name total ids ready) (λ r, match r with Ok js => Forall kj js | Err _ => True end)) as Hrot.
    { apply conf_bind, conf_do; [done|]. intros [l|e] _; [|done]. by apply IH. }
    apply conf_bind. eapply conf_mono; [|by apply conf_get]. intros [[j|]|e] Hj; [|exact Hrot|done].
    apply conf_bind, conf_do; [done|]. intros now _.
    destruct (_ && _ && _); [|exact Hrot].
    apply conf_bind. eapply conf_mono; [|by apply conf_job_process]. intros [j'|e] Hj'; [|done].
    apply conf_bind, conf_do; [done|]. intros [l|e] _; [|done]. apply IH. apply Forall_app. split; [done|].
    by constructor.
  Qed.
  Lemma conf_pick_loop fuel total ready cursor :
    Forall kj ready →
    conf (pick_loop prof name fuel total ready cursor) (λ r, match r with Ok js => Forall kj js | Err _ => True end).
  Proof.
    revert ready cursor. induction fuel as [|fuel IH]; intros ready cursor Hr; [done|]. cbn [pick_loop].
    apply conf_bind, conf_do; [apply lists_ok|]. intros [ids|e] Hids; [|done].
    destruct (i32_norm prof _) as [cursor'|]; [|done]. apply conf_bind.
    eapply conf_mono; [|by apply conf_pick_batch]. intros [ready'|e] Hr'; [|done].
    destruct (_ <=? _)%nat; [done|]. destruct (_ <=? _); [done|]. by apply IH.
  Qed.
  Definition tj (t : task M) : Prop := kj (t_orig t) ∧ kj (t_job t).
  Lemma conf_process_jobs c ts : Forall tj ts → conf (process_jobs prof name c ts) (Forall tj).
  Proof.
    intros Ht. unfold process_jobs, pick_jobs_to_process. apply conf_bind, conf_bind, conf_do; [apply lists_ok|].
    intros r _. cbv zeta. destruct (_ <=? _)%nat.
    { cbn. by rewrite app_nil_r. }
    unfold try_pick_specific_ready_jobs. apply conf_bind, conf_do; [apply lists_ok|].
    intros [len|e] _; [|done]. eapply conf_mono; [|by apply conf_pick_loop].
    intros [js|e] Hjs; cbn; [|done]. apply Forall_app. split; [done|].
    apply Forall_map. eapply list.Forall_impl; [exact Hjs|]. by intros j Hj.
  Qed.
  Lemma conf_tail o j u : kj o → kj j → conf (task_tail prof sched name o j u) T.
  Proof.
    intros Ho Hj. unfold task_tail. apply conf_bind. apply (conf_mono _ _ _ T).
    - intros [u'|e] _; [done|]. apply conf_bind. eapply conf_mono; [|by apply conf_failed]. done.
    - assert (∀ j' b, kj j' → conf (execute_finish prof sched name j' b) T) as Hfin.
      { intros j' b Hj'. unfold execute_finish. apply conf_bind. eapply conf_mono; [|by apply conf_next_tick].
        intros [nj|] Hn; [by apply conf_re_enqueue|]. destruct b; [by apply conf_failed|by apply conf_finished]. }
      unfold execute_tail. destruct (jretry (ctx j)) as [r|]; [|by apply Hfin].
      apply conf_bind. apply (conf_mono _ _ _ T).
      + intros [r' [t|]] _; [by apply conf_re_enqueue|by apply Hfin].
      + unfold call_retry_at. destruct (ur_retry u) as [failed|r' o']; [|done].
        destruct (failed && should_retry r); [|done]. apply conf_bind, conf_do; [done|]. intros now _.
        by destruct (retry_retry_at prof r now) as [[r' t]|].
  Qed.
  Lemma conf_task_step t u :
    tj t → conf (task_step prof sched name t u) (λ r, match r.1 with Some t' => tj t' | None => True end).
  Proof.
    intros [Ho Hj]. unfold task_step. destruct (t_phase t).
    - destruct (is_cancelled (t_job t)).
      + apply conf_bind, conf_bind, conf_do; [done|]. done.
      + apply conf_bind, conf_do; [done|]. done.
    - done.
    - apply conf_bind, conf_do; [done|]. done.
    - apply conf_bind. eapply conf_mono; [|by apply conf_tail]. done.
  Qed.
  Lemma conf_ev_prog c ts e :
    Forall tj ts → names_only K e →
    conf (ev_prog prof sched name c ts e) (λ r, Forall tj r.1.1.2).
  Proof.
    intros Ht He. destruct e as [j ec|id|id|id|c'| |i u| | |e' n|]; cbn [ev_prog].
    - apply conf_bind. eapply conf_mono; [|by apply conf_run]. done.
    - apply conf_bind. apply (conf_mono _ _ _ T); [done|]. unfold cancel_job. apply conf_bind.
      eapply conf_mono; [|by apply conf_get]. intros [[j|]|e] Hj; try done. destruct (is_queued j); [|done].
      apply conf_bind. eapply conf_mono; [|by apply conf_job_cancel]. intros [j'|e] _; [|done].
      apply conf_bind, conf_do; [apply lists_ok|]. by intros [u|e] _.
    - apply conf_bind. eapply conf_mono; [|by apply conf_get]. done.
    - apply conf_bind. apply (conf_mono _ _ _ T); [done|]. unfold retry_job. apply conf_bind.
      eapply conf_mono; [|by apply conf_get]. intros [[j|]|e] Hj; try done. destruct (is_done j); [|done].
      apply conf_bind. eapply conf_mono; [|by apply conf_re_enqueue]. by intros [u|e] _.
    - done.
    - apply conf_bind. eapply conf_mono; [|by apply conf_process_jobs]. done.
    - destruct (ts !! i) as [t|] eqn:Et; [|done]. apply conf_bind.
      eapply conf_mono; [|apply conf_task_step]; [|by eapply Forall_lookup_1].
      intros [[t'|] js] H'; cbn in *.
      + by apply Forall_insert.
      + by apply Forall_delete.
    - by constructor.
    - by constructor.
    - by constructor.
    - apply conf_bind. eapply conf_mono; [|by apply conf_process_jobs]. done.
  Qed.
  Definition sj (s : sys unit M) : Prop := Forall tj (tasks s).
  Lemma conf_commit s e : sj s → names_only K e → conf (commit_prog prof sched name s e) (λ r, sj r.1).
  Proof.
    intros Hs He. unfold commit_prog. apply conf_bind. eapply conf_mono; [|by apply conf_catch, conf_ev_prog].
    intros [[[[c ts] js] r]| |] H; first [done | by constructor | exact H].
  Qed.
  Lemma conf_step s e : sj s → names_only K e → conf (step_prog prof sched name s e) (λ r, sj r.1).
  Proof.
    intros Hs He. unfold step_prog. destruct (alive s).
    - destruct e as [| | | | | | | | |e' n|]; try (by apply conf_commit); try exact Hs; try (by constructor).
      apply conf_bind. apply (conf_mono _ _ _ T); [first [done|by intros; constructor]|].
      assert (conf (cut n (ev_prog prof sched name (cfg s) (tasks s) e')) T) as H.
      { by eapply conf_cut, conf_ev_prog. }
      destruct e'; try exact H. done.
    - destruct e as [| | | | | | | | |e' n|]; try (by apply conf_commit); try exact Hs; try (by constructor).
      destruct e'; try exact Hs. apply conf_bind. apply (conf_mono _ _ _ T); [first [done|by intros; constructor]|].
      by eapply conf_cut, conf_ev_prog.
  Qed.
  Lemma conf_hist es s : sj s → Forall (names_only K) es → conf (hist_prog prof sched name s es) T.
  Proof.
    intros Hs Hes. revert s Hs. induction Hes as [|e es He Hes IH]; intros s Hs; [done|]. cbn [hist_prog].
    apply conf_bind. eapply conf_mono; [|by apply conf_step]. intros [s' r] Hs'.
    apply conf_bind. eapply conf_mono; [|by apply IH]. by intros [s'' rs] _.
  Qed.
End queue_conf.

(** *** Effects and views *)
Ltac case_eqb := match goal with |- context [String.eqb ?a ?b] => destruct (String.eqb_spec a b) end.
Section views.
  Context {M : Type} `{SM : Serde M}.
  Context (L K : string → Prop).
  Context (clock : nat → time).

  Definition vw (s s' : store) : Prop :=
    (∀ q, L q → items s q = items s' q) ∧
    (∀ k, K k → mem_sget s STORAGE_HASH k = mem_sget s' STORAGE_HASH k).
  Definition okv (s : store) : Prop :=
    (∀ q, L q → Forall K (items s q)) ∧
    (∀ k v, K k → mem_sget s STORAGE_HASH k = Some v → good_value (M := M) K v).
  Lemma vw_refl s : vw s s.
  Proof. done. Qed.
  Lemma vw_sym s s' : vw s s' → vw s' s.
  Proof. intros [H1 H2]. split; intros; symmetry; auto. Qed.
  Lemma vw_trans s s' s'' : vw s s' → vw s' s'' → vw s s''.
  Proof. intros [H1 H2] [H3 H4]. split; [intros q Hq; by rewrite H1, H3|intros k Hk; by rewrite H2, H4]. Qed.
  Lemma okv_vw s s' : okv s → vw s s' → okv s'.
  Proof.
    intros [H1 H2] [H3 H4]. split.
    - intros q Hq. rewrite <- H3 by done. auto.
    - intros k v Hk E. rewrite <- H4 in E by done. eauto.
  Qed.

  Lemma items_push s q x q' : items (mem_push s q x) q' = upd (items s) q (x :: items s q) q'.
  Proof. exact (mem_push_ql s q x q'). Qed.
  Lemma items_remove s q x q' : items (mem_remove s q x) q' = upd (items s) q (filter (λ y, y ≠ x) (items s q)) q'.
  Proof. exact (mem_remove_ql s q x q'). Qed.
  Lemma items_upsert s h k v q : items (mem_upsert s h k v) q = items s q.
  Proof. unfold items. by rewrite mem_upsert_queues. Qed.
  Lemma sget_push s q x h k : mem_sget (mem_push s q x) h k = mem_sget s h k.
  Proof. unfold mem_sget. by rewrite mem_push_storages. Qed.
  Lemma sget_remove s q x h k : mem_sget (mem_remove s q x) h k = mem_sget s h k.
  Proof. unfold mem_sget. by rewrite mem_remove_storages. Qed.
  Lemma sget_move s f t n fd td h k : mem_sget (mem_move s f t n fd td).1 h k = mem_sget s h k.
  Proof. unfold mem_sget. by rewrite mem_move_storages. Qed.
  Lemma Forall_from_end d l : Forall K l → Forall K (from_end d l).
  Proof. destruct d; cbn; [done|]. intros H. apply List.Forall_rev. done. Qed.
  Lemma Forall_put_end d l l' : Forall K l → Forall K l' → Forall K (put_end d l l').
  Proof. intros H H'. destruct d; cbn; apply Forall_app; split; try done. by apply List.Forall_rev. Qed.

  Lemma eff_same {X : Set} (e : eff X) s s' r lg :
    within (M := M) L K e → okv s → vw s s' →
    let a := mem_h clock X e (World s r lg) in
    let b := mem_h clock X e (World s' r lg) in
    a.2 = b.2 ∧ sound (M := M) K e a.2 ∧ reads a.1 = reads b.1 ∧ log a.1 = log b.1 ∧
    okv (st a.1) ∧ vw (st a.1) (st b.1).
  Proof.
    intros Hw Hok Hv. assert (okv s') as Hok' by (by eapply okv_vw). destruct Hv as [V1 V2]. destruct Hok as [O1 O2].
    destruct e as [q x|f t n fd td|q x|q n d|q|h k v|h k| |m]; cbn [mem_h st reads log set_st fst snd].
    - destruct Hw as [Hq Hx]. split; [done|]. split; [done|]. split; [done|]. split; [done|]. split; split.
      + intros q' Hq'. rewrite items_push. unfold upd. case_eqb; [|by apply O1]. constructor; [done|]. by apply O1.
      + intros k v Hk. rewrite sget_push. by apply O2.
      + intros q' Hq'. rewrite !items_push. unfold upd. case_eqb; [|by apply V1]. by rewrite V1.
      + intros k Hk. rewrite !sget_push. by apply V2.
    - destruct Hw as [Hf Ht].
      destruct (mem_move_ql s f t n fd td) as [A1 A2]. destruct (mem_move_ql s' f t n fd td) as [B1 B2].
      pose proof (sget_move s f t n fd td STORAGE_HASH) as A3. pose proof (sget_move s' f t n fd td STORAGE_HASH) as B3.
      destruct (mem_move s f t n fd td) as [s1 l1]. destruct (mem_move s' f t n fd td) as [s1' l1'].
      cbn [fst snd set_st st reads log] in *. subst l1 l1'.
      change (ql s) with (items s) in *. change (ql s') with (items s') in *.
      change (ql s1) with (items s1) in *. change (ql s1') with (items s1') in *.
      assert (Forall K (from_end fd (items s f))) as Hf' by (by apply Forall_from_end, O1).
      split; [by rewrite V1|]. split; [by apply Forall_take|]. split; [done|]. split; [done|]. split; split.
      + intros q' Hq'. rewrite A2. cbv zeta. unfold upd at 1. case_eqb.
        * apply Forall_put_end; [|by apply Forall_take]. unfold upd. case_eqb; [|by apply O1].
          by apply Forall_from_end, Forall_drop.
        * unfold upd. case_eqb; [|by apply O1]. by apply Forall_from_end, Forall_drop.
      + intros k v Hk. rewrite A3. by apply O2.
      + intros q' Hq'. rewrite A2, B2. cbv zeta. unfold upd. rewrite (V1 f), (V1 t), (V1 q') by done. done.
      + intros k Hk. rewrite A3, B3. by apply V2.
    - split; [done|]. split; [done|]. split; [done|]. split; [done|]. split; split.
      + intros q' Hq'. rewrite items_remove. unfold upd. case_eqb; [|by apply O1].
        apply list.Forall_forall. intros y Hy. apply elem_of_list_filter in Hy as [_ Hy].
        by eapply list.Forall_forall; [apply (O1 q)|].
      + intros k v Hk. rewrite sget_remove. by apply O2.
      + intros q' Hq'. rewrite !items_remove. unfold upd. case_eqb; [|by apply V1]. by rewrite V1.
      + intros k Hk. rewrite !sget_remove. by apply V2.
    - rewrite !mem_get_spec. change (ql s) with (items s). change (ql s') with (items s').
      split; [by rewrite V1|]. split; [by apply Forall_take, Forall_from_end, O1|]. done.
    - rewrite !mem_count_spec. change (ql s) with (items s). change (ql s') with (items s').
      split; [by rewrite V1|]. done.
    - destruct Hw as (-> & Hk & Hg). split; [done|]. split; [done|]. split; [done|]. split; [done|]. split; split.
      + intros q' Hq'. rewrite items_upsert. by apply O1.
      + intros k' v' Hk'. rewrite mem_upsert_sget. destruct (_ && _); [by intros [= <-]|by apply O2].
      + intros q' Hq'. rewrite !items_upsert. by apply V1.
      + intros k' Hk'. rewrite !mem_upsert_sget. destruct (_ && _); [done|by apply V2].
    - destruct Hw as [-> Hk]. split; [by rewrite V2|]. split; [|done]. cbn.
      destruct (mem_sget s STORAGE_HASH k) as [v|] eqn:E; [|done]. by eapply O2.
    - done.
    - done.
  Qed.
  Lemma eff_frame (L' K' : string → Prop) {X : Set} (e : eff X) s r lg :
    (∀ q, L q → L' q → False) → (∀ k, K k → K' k → False) →
    within (M := M) L' K' e → vw s (st (mem_h clock X e (World s r lg)).1).
  Proof.
    intros HL HK Hw.
    destruct e as [q x|f t n fd td|q x|q n d|q|h k v|h k| |m]; cbn [mem_h st reads log set_st fst snd]; try done.
    - destruct Hw as [Hq Hx]. split.
      + intros q' Hq'. rewrite items_push. unfold upd. case_eqb; [|done]. subst. by destruct (HL q).
      + intros k Hk. by rewrite sget_push.
    - destruct Hw as [Hf Ht]. destruct (mem_move_ql s f t n fd td) as [A1 A2].
      pose proof (sget_move s f t n fd td STORAGE_HASH) as A3.
      destruct (mem_move s f t n fd td) as [s1 l1]. cbn [fst snd set_st st] in *. split.
      + intros q' Hq'. change (ql s1) with (items s1) in *. rewrite A2. cbv zeta. unfold upd.
        case_eqb; [subst; by destruct (HL t)|]. case_eqb; [subst; by destruct (HL f)|]. done.
      + intros k Hk. by rewrite A3.
    - split.
      + intros q' Hq'. rewrite items_remove. unfold upd. case_eqb; [|done]. subst. by destruct (HL q).
      + intros k Hk. by rewrite sget_remove.
    - destruct Hw as (-> & Hk & Hg). split.
      + intros q' Hq'. by rewrite items_upsert.
      + intros k' Hk'. rewrite mem_upsert_sget. destruct (String.eqb_spec k' k) as [-> |]; [by destruct (HK k)|].
        by rewrite andb_false_r.
  Qed.
End views.

(** *** Interleavings *)
Lemma solo_S n t s : solo (S n) t s = let (t', s') := solo n t s in thread_step t' s'.
Proof.
  revert t s. induction n as [|n IH]; intros t s; cbn [solo].
  - by destruct (thread_step t s).
  - destruct (thread_step t s) as [t' s']. rewrite <- IH. cbn [solo]. done.
Qed.
Lemma turns_snoc i l j : turns i (l ++ [j]) = ((if decide (j = i) then 1 else 0) + turns i l)%nat.
Proof.
  unfold turns. rewrite list.filter_app, app_length, Nat.add_comm. f_equal.
  rewrite filter_cons. by case_decide.
Qed.
Lemma joint_snoc l i ts s :
  joint (l ++ [i]) ts s =
  let (ts', s') := joint l ts s in
  match ts' !! i with
  | Some t => let (t', s'') := thread_step t s' in (<[i := t']> ts', s'')
  | None => (ts', s')
  end.
Proof.
  revert ts s. induction l as [|j l IH]; intros ts s; cbn [joint app].
  - destruct (ts !! i) as [t|]; [|done]. by destruct (thread_step t s).
  - destruct (ts !! j) as [t|]; [|apply IH]. destruct (thread_step t s) as [t' s']. apply IH.
Qed.

Definition thread_conf (q : queue_spec) (t : thread) : Prop :=
  th_clock t = q_clock q ∧
  let _ := q_serde q in conf (M := q_type q) (lists_of (q_name q)) (q_ids q) (th_prog t) T.
Definition qvw (q : queue_spec) : store → store → Prop := vw (lists_of (q_name q)) (q_ids q).
Definition qok (q : queue_spec) : store → Prop :=
  let _ := q_serde q in okv (M := q_type q) (lists_of (q_name q)) (q_ids q).

Lemma qvw_same q s s' : qvw q s s' ↔ same_view q s s'.
Proof.
  split; intros [H1 H2]; (split; [|done]).
  - intros stt. apply H1, lists_ok.
  - intros l [stt ->]. apply H1.
Qed.
Lemma qok_clean q s : clean q s → qok q s.
Proof.
  intros [H1 H2]. split.
  - intros l [stt ->]. apply list.Forall_forall. intros id. apply H1.
  - intros k v Hk E js j -> E2. by eapply H2.
Qed.
Lemma step_same q t s s' :
  thread_conf q t → qok q s → qvw q s s' →
  (thread_step t s).1 = (thread_step t s').1 ∧ thread_conf q (thread_step t s).1 ∧
  qok q (thread_step t s).2 ∧ qvw q (thread_step t s).2 (thread_step t s').2.
Proof.
  destruct t as [A p c r lg]. intros [Hc Hp] Hok Hv. unfold thread_step. cbn [th_prog th_clock th_reads th_log th_res] in *.
  destruct p as [a| | |X e k]; [done|done|done|].
  destruct Hp as [Hw Hk].
  pose proof (eff_same (SM := q_serde q) (lists_of (q_name q)) (q_ids q) c e s s' r lg Hw Hok Hv) as (E1 & E2 & E3 & E4 & E5 & E6).
  destruct (mem_h c X e (World s r lg)) as [w x]. destruct (mem_h c X e (World s' r lg)) as [w' x'].
  cbn [fst snd] in *. subst x'. rewrite E3, E4. split; [done|]. split; [|done]. split; [done|]. by apply Hk.
Qed.
Lemma step_frame q q' t s :
  apart q q' → thread_conf q' t → qvw q s (thread_step t s).2.
Proof.
  destruct t as [A p c r lg]. intros [Hn Hi] [Hc Hp]. unfold thread_step. cbn [th_prog th_clock th_reads th_log th_res] in *.
  destruct p as [a| | |X e k]; try apply vw_refl.
  destruct Hp as [Hw Hk].
  pose proof (eff_frame (SM := q_serde q') (lists_of (q_name q)) (q_ids q) c
    (lists_of (q_name q')) (q_ids q') e s r lg) as H.
  destruct (mem_h c X e (World s r lg)) as [w x]. apply H; try done.
  intros l [s1 ->] [s2 E]. by apply queue_key_inj in E as [E _].
Qed.

Section joint.
  Context (prof : profile).
  Context (sched : string → option (time → option time)).
  Context (qs : list queue_spec) (s0 : store).
  Context (Hok : Forall (queue_ok s0) qs).
  Context (Hap : ∀ i j q q', qs !! i = Some q → qs !! j = Some q' → i ≠ j → apart q q').
  Notation th := (thread_of prof sched).

  Lemma thread_conf_init q : queue_ok s0 q → thread_conf q (th q).
  Proof.
    intros [H1 H2]. split; [done|]. cbn [thread_of th_prog]. apply conf_hist; [|done]. by constructor.
  Qed.
  Definition jinv (schedule : list nat) (ts : list thread) (s : store) : Prop :=
    length ts = length qs ∧
    ∀ i q, qs !! i = Some q → ∃ t, ts !! i = Some t ∧ thread_conf q t ∧ qok q s ∧
      t = (solo (turns i schedule) (th q) s0).1 ∧ qvw q s (solo (turns i schedule) (th q) s0).2.
  Lemma jinv_all schedule : jinv schedule (joint schedule (th <$> qs) s0).1 (joint schedule (th <$> qs) s0).2.
  Proof.
    induction schedule as [|j l IH] using rev_ind.
    - split; [cbn [joint fst]; by rewrite fmap_length|]. intros i q E. exists (th q). cbn [joint fst snd].
      rewrite list_lookup_fmap, E. split; [done|].
      assert (queue_ok s0 q) as Hq by (by eapply Forall_lookup_1).
      split; [by apply thread_conf_init|]. split; [by apply qok_clean, Hq|]. split; [done|]. apply vw_refl.
    - rewrite joint_snoc. destruct (joint l (th <$> qs) s0) as [ts s]. cbn [fst snd] in IH. destruct IH as [Hlen IH].
      destruct (ts !! j) as [tj|] eqn:Ej.
      + assert (∃ qj, qs !! j = Some qj) as [qj Eqj].
        { apply lookup_lt_is_Some. rewrite <- Hlen. apply lookup_lt_is_Some. by exists tj. }
        destruct (IH j qj Eqj) as (t & Et & Hc & Ho & Es & Hv). rewrite Ej in Et. injection Et as <-.
        destruct (solo (turns j l) (th qj) s0) as [tsol ssol] eqn:Esol. cbn [fst snd] in Es, Hv. subst tsol.
        destruct (step_same qj tj s ssol Hc Ho Hv) as (S1 & S2 & S3 & S4).
        destruct (thread_step tj s) as [t' s'] eqn:Est. cbn [fst snd] in *.
        split; [by rewrite insert_length|]. intros i q Eq. rewrite turns_snoc. destruct (decide (j = i)) as [-> |Hne].
        * rewrite Eqj in Eq. injection Eq as <-. exists t'. rewrite list_lookup_insert by (by eapply lookup_lt_Some).
          split; [done|]. split; [done|]. split; [done|].
          change (1 + turns i l)%nat with (S (turns i l)). rewrite solo_S, Esol. done.
        * destruct (IH i q Eq) as (t & Et & Hc' & Ho' & Es' & Hv').
          assert (qvw q s s') as Hf.
          { pose proof (step_frame q qj tj s) as H. rewrite Est in H. apply H; [|done]. by eapply (Hap i j). }
          exists t. rewrite list_lookup_insert_ne by done. split; [done|]. split; [done|].
          split; [by eapply okv_vw|]. cbn [Nat.add]. split; [done|]. eapply vw_trans; [|exact Hv']. by apply vw_sym.
      + split; [done|]. intros i q Eq. rewrite turns_snoc. destruct (decide (j = i)) as [-> |Hne].
        * destruct (IH i q Eq) as (t & Et & _). congruence.
        * cbn [Nat.add]. by apply IH.
  Qed.

  Lemma joint_is_solo schedule i q :
    qs !! i = Some q →
    (joint schedule (th <$> qs) s0).1 !! i = Some (solo (turns i schedule) (th q) s0).1 ∧
    same_view q (joint schedule (th <$> qs) s0).2 (solo (turns i schedule) (th q) s0).2.
  Proof.
    intros Eq. destruct (proj2 (jinv_all schedule) i q Eq) as (t & Et & _ & _ & -> & Hv).
    split; [done|]. by apply qvw_same.
  Qed.
End joint.

(** *** Alone to the end *)
Definition th_world (t : thread) (s : store) : world := World s (th_reads t) (th_log t).
Lemma ended_step t s : ended t → thread_step t s = (t, s).
Proof. unfold ended, thread_step. by destruct (th_prog t). Qed.
Lemma ended_solo n t s : ended t → solo n t s = (t, s).
Proof. intros H. induction n as [|n IH]; [done|]. cbn [solo]. by rewrite ended_step. Qed.
(** A thread that runs alone long enough has done [run]. *)
Lemma solo_run {A} (p : prog A) c r lg s :
  ∃ N, ∀ n, (N ≤ n)%nat → ∃ p', solo n (Thread A p c r lg) s =
    (Thread A p' c (reads (run (mem_h c) p (World s r lg)).1) (log (run (mem_h c) p (World s r lg)).1),
     st (run (mem_h c) p (World s r lg)).1) ∧
    p' = match (run (mem_h c) p (World s r lg)).2 with Done a => Ret a | Panicked => Panic | Diverged => Diverge end.
Proof.
  revert r lg s. induction p as [a| | |X e k IH]; intros r lg s.
  1-3: exists 0%nat; intros n _; eexists; rewrite ended_solo by done; done.
  cbn [run]. destruct (mem_h c X e (World s r lg)) as [[s1 r1 lg1] x] eqn:E.
  destruct (IH x r1 lg1 s1) as [N HN]. exists (S N). intros n Hn. destruct n as [|n]; [lia|].
  cbn [solo]. unfold thread_step. cbn [th_prog th_clock th_reads th_log th_res]. rewrite E.
  cbn [st reads log]. apply HN. lia.
Qed.
Section alone.
  Context (prof : profile).
  Context (sched : string → option (time → option time)).

  Lemma thread_alone q s :
    let _ := q_serde q in
    let fin := sys_run prof sched (q_name q) (mem_h (q_clock q)) (sys_init (World s 0 [])) (q_events q) in
    let ans := responses prof sched (q_name q) (mem_h (q_clock q)) (sys_init (World s 0 [])) (q_events q) in
    ∃ N, ∀ n, (N ≤ n)%nat →
      solo n (thread_of prof sched q) s =
      (Thread _ (Ret (own_state fin, ans)) (q_clock q) (reads (sw fin)) (log (sw fin)), st (sw fin)).
  Proof.
    cbv zeta.
    destruct (solo_run (hist_prog (SM := q_serde q) prof sched (q_name q) (sys_init tt) (q_events q)) (q_clock q) 0 [] s) as [N HN].
    exists N. intros n Hn. destruct (HN n Hn) as (p' & E & Ep). unfold thread_of. rewrite E. clear E HN.
    pose proof (run_hist (SM := q_serde q) prof sched (q_name q) (mem_h (q_clock q)) (q_events q) (sys_init (World s 0 []))) as Hr.
    change (own_state (sys_init (World s 0 []))) with (sys_init (M := q_type q) tt) in Hr.
    change (sw (sys_init (M := q_type q) (World s 0 []))) with (World s 0 []) in Hr.
    rewrite Hr in Ep |- *. cbn [fst snd] in *. by rewrite Ep.
  Qed.
  Lemma ended_alone q s n :
    let _ := q_serde q in
    let fin := sys_run prof sched (q_name q) (mem_h (q_clock q)) (sys_init (World s 0 [])) (q_events q) in
    let ans := responses prof sched (q_name q) (mem_h (q_clock q)) (sys_init (World s 0 [])) (q_events q) in
    ended (solo n (thread_of prof sched q) s).1 →
    solo n (thread_of prof sched q) s =
    (Thread _ (Ret (own_state fin, ans)) (q_clock q) (reads (sw fin)) (log (sw fin)), st (sw fin)).
  Proof.
    cbv zeta. intros He. destruct (thread_alone q s) as [N HN]. etrans; [|apply (HN (n + N)%nat); lia].
    assert (∀ a b t s', solo (a + b) t s' = let (t', s'') := solo a t s' in solo b t' s'') as Hadd.
    { induction a as [|a IH]; intros b t s'; [done|]. cbn [solo Nat.add]. destruct (thread_step t s') as [t1 s1]. apply IH. }
    rewrite Hadd. destruct (solo n (thread_of prof sched q) s) as [t1 s1]. by rewrite ended_solo.
  Qed.
End alone.

Lemma joint_alone prof sched qs s0 i q :
  Forall (queue_ok s0) qs →
  (∀ i j q q', qs !! i = Some q → qs !! j = Some q' → i ≠ j → apart q q') →
  let th := thread_of prof sched in
  let _ := q_serde q in
  let init := sys_init (World s0 0 []) in
  let alone := sys_run prof sched (q_name q) (mem_h (q_clock q)) init (q_events q) in
  let answers := responses prof sched (q_name q) (mem_h (q_clock q)) init (q_events q) in
  let final := Thread _ (Ret (own_state alone, answers)) (q_clock q) (reads (sw alone)) (log (sw alone)) in
  qs !! i = Some q →
  (∀ schedule t, (joint schedule (th <$> qs) s0).1 !! i = Some t → ended t →
     t = final ∧ same_view q (joint schedule (th <$> qs) s0).2 (st (sw alone))) ∧
  ∃ n, ∀ schedule, (n ≤ turns i schedule)%nat →
     (joint schedule (th <$> qs) s0).1 !! i = Some final.
Proof.
  intros Hok Hap. cbv zeta. intros Eq. split.
  - intros schedule t Et Hend. destruct (joint_is_solo prof sched qs s0 Hok Hap schedule i q Eq) as [E1 E2].
    rewrite Et in E1. injection E1 as ->.
    pose proof (ended_alone prof sched q s0 (turns i schedule) Hend) as E. rewrite E in E2 |- *. done.
  - destruct (thread_alone prof sched q s0) as [N HN]. exists N. intros schedule Hn.
    destruct (joint_is_solo prof sched qs s0 Hok Hap schedule i q Eq) as [E1 _]. rewrite E1. by rewrite (HN _ Hn).
Qed.

(** *** The same on Redis *)
Section redis.
  Context {M : Type} `{SM : Serde M}.
  Context (prof : profile).
  Context (sched : string → option (time → option time)).
  Context (name : string).
  Notation port := (portable (list_key name)).
  Lemma port_catch {A} (p : prog A) : port p → port (catch p).
  Proof. induction p as [| | |X e k IH]; cbn; auto. intros [H1 H2]. split; [done|]. intros x. by apply IH. Qed.
  Lemma port_cut {A} n (p : prog A) : port p → port (cut n p).
  Proof.
    revert p. induction n as [|n IH]; intros p; [by destruct p|]. destruct p as [| | |X e k]; cbn; auto.
    intros [H1 H2]. split; [done|]. intros x. by apply IH.
  Qed.
  Lemma port_commit (s : sys unit M) e : port (commit_prog prof sched name s e).
  Proof. apply portable_bind; [by apply port_catch, port_event|done]. Qed.
  Lemma port_step (s : sys unit M) e : port (step_prog prof sched name s e).
  Proof.
    unfold step_prog. destruct (alive s).
    - destruct e as [| | | | | | | | |e' n|]; try apply port_commit; try done.
      apply portable_bind; [|done]. destruct e'; try (apply port_cut, port_event). done.
    - destruct e as [| | | | | | | | |e' n|]; try apply port_commit; try done.
      destruct e'; try done. apply portable_bind; [|done]. apply port_cut, port_event.
  Qed.
  Lemma port_hist es (s : sys unit M) : port (hist_prog prof sched name s es).
  Proof.
    revert s. induction es as [|e es IH]; intros s; [done|]. cbn [hist_prog].
    apply portable_bind; [apply port_step|]. intros [s' r]. apply portable_bind; [apply IH|]. by intros [s'' rs].
  Qed.
End redis.

Definition any_list (q : string) : Prop := q ≠ STORAGE_HASH.
Lemma any_list_dec q : Decision (any_list q).
Proof. unfold any_list. apply _. Defined.
Definition store_rel (s : store) (k : keyspace) : Prop := redis_rel any_list (World s 0 []) (RWorld k 0 []).
Lemma redis_rel_store w r : redis_rel any_list w r → store_rel (st w) (keys r).
Proof. intros (H1 & H2 & H3 & H4). by split; [|split; [|split]]. Qed.
Definition thread_port (q : queue_spec) (t : thread) : Prop := portable (list_key (q_name q)) (th_prog t).

Lemma portable_any {M} `{SM : Serde M} name K {X : Set} (e : eff X) :
  within (M := M) (lists_of name) K e → portable_call (list_key name) e → portable_call any_list e.
Proof.
  assert (∀ q, lists_of name q → any_list q) as Hq.
  { intros q [stt ->]. apply queue_key_not_storage. }
  destruct e; cbn; try done.
  - intros [H _] _. auto.
  - intros [H1 H2] (_ & _ & H3). auto.
  - intros H _. auto.
  - intros H [_ H2]. auto.
  - intros H _. auto.
  - intros (-> & _) _ H. by apply H.
  - intros (-> & _) _ H. by apply H.
Qed.
Lemma step_redis q t s k :
  thread_conf q t → thread_port q t → store_rel s k →
  (thread_step_redis t k).1 = (thread_step t s).1 ∧ thread_port q (thread_step t s).1 ∧
  store_rel (thread_step t s).2 (thread_step_redis t k).2.
Proof.
  destruct t as [A p c r lg]. unfold thread_conf, thread_port, thread_step, thread_step_redis.
  cbn [th_prog th_clock th_reads th_log th_res]. intros [Hc Hp] Hpt Hs.
  destruct p as [a| | |X e f]; [done|done|done|].
  destruct Hp as [Hw Hk]. destruct Hpt as [Hp1 Hp2].
  assert (redis_rel any_list (World s r lg) (RWorld k r lg)) as HR.
  { destruct Hs as (H1 & H2 & _). by split; [|split; [|split]]. }
  destruct (redis_sim any_list any_list_dec c X e _ _ (portable_any (SM := q_serde q) _ _ e Hw Hp1) HR) as [E1 E2].
  destruct (mem_h c X e (World s r lg)) as [w x]. destruct (redis_h c X e (RWorld k r lg)) as [w' x'].
  cbn [fst snd] in *. subst x'. destruct E2 as (R1 & R2 & R3 & R4). rewrite R3, R4.
  split; [done|]. split; [apply Hp2|]. by split; [|split; [|split]].
Qed.

Lemma joint_redis_snoc l i ts k :
  joint_redis (l ++ [i]) ts k =
  let (ts', k') := joint_redis l ts k in
  match ts' !! i with
  | Some t => let (t', k'') := thread_step_redis t k' in (<[i := t']> ts', k'')
  | None => (ts', k')
  end.
Proof.
  revert ts k. induction l as [|j l IH]; intros ts k; cbn [joint_redis app].
  - destruct (ts !! i) as [t|]; [|done]. by destruct (thread_step_redis t k).
  - destruct (ts !! j) as [t|]; [|apply IH]. destruct (thread_step_redis t k) as [t' k']. apply IH.
Qed.
Lemma joint_redis_same prof sched qs schedule :
  Forall (queue_ok store_empty) qs →
  (∀ i j q q', qs !! i = Some q → qs !! j = Some q' → i ≠ j → apart q q') →
  (joint_redis schedule (thread_of prof sched <$> qs) ∅).1 = (joint schedule (thread_of prof sched <$> qs) store_empty).1.
Proof.
  intros Hok Hap.
  enough (let a := joint schedule (thread_of prof sched <$> qs) store_empty in
          let b := joint_redis schedule (thread_of prof sched <$> qs) ∅ in
          b.1 = a.1 ∧ (∀ i q t, qs !! i = Some q → a.1 !! i = Some t → thread_port q t) ∧ store_rel a.2 b.2) as H by apply H.
  induction schedule as [|j l IH] using rev_ind.
  - cbn [joint joint_redis fst snd]. split; [done|]. split; [|apply (redis_rel_empty any_list)].
    intros i q t Eq. rewrite list_lookup_fmap, Eq. intros [= <-]. apply port_hist.
  - cbv zeta in *. pose proof (jinv_all prof sched qs store_empty Hok Hap l) as [Hlen HI].
    rewrite joint_snoc, joint_redis_snoc.
    destruct (joint l _ _) as [ts s]. destruct (joint_redis l _ _) as [ts' k]. cbn [fst snd] in *.
    destruct IH as (-> & HP & HR). destruct (ts !! j) as [t|] eqn:Ej; [|done].
    assert (∃ qj, qs !! j = Some qj) as [qj Eqj].
    { apply lookup_lt_is_Some. rewrite <- Hlen. apply lookup_lt_is_Some. by exists t. }
    destruct (HI j qj Eqj) as (t0 & Et & Hc & _). rewrite Ej in Et. injection Et as <-.
    destruct (step_redis qj t s k Hc (HP j qj t Eqj Ej) HR) as (E1 & E2 & E3).
    destruct (thread_step t s) as [t1 s1]. destruct (thread_step_redis t k) as [t2 k2]. cbn [fst snd] in *. subst t2.
    split; [done|]. split; [|done]. intros i q ti Eq Ei. destruct (decide (i = j)) as [-> |Hne].
    + rewrite list_lookup_insert in Ei by (by eapply lookup_lt_Some). injection Ei as <-. by rewrite Eqj in Eq; injection Eq as <-.
    + rewrite list_lookup_insert_ne in Ei by done. by eapply HP.
Qed.

(** *** Common ids *)
Section clash.
  Context {MA MB : Type} {SA : Serde MA} {SB : Serde MB}.
  Context (prof : profile).
  Context (sched : string → option (time → option time)).
  Context (name : string).
  Context (clock : nat → time).

  Lemma clash_overwrites (s : sys world MB) (j : job MB) c :
    alive s = true →
    stored (M := MB) (sw s) (jid j) = None ∨
    override_data c = true ∧ (∀ ex, stored (M := MB) (sw s) (jid j) = Some ex → jstatus (ctx ex) ≠ Running) →
    ∃ j', jid j' = jid j ∧ data j' = data j ∧
      mem_sget (st (sw (sys_step prof sched name (mem_h clock) s (EvEnqueue j c)).1)) STORAGE_HASH (jid j) =
      Some (enc_job j').
  Proof.
    intros Ha Hs. rewrite step_enqueue by done. cbn [fst snd sw]. unfold do_run.
    assert (∀ w, ∃ j', jid j' = jid j ∧ data j' = data j ∧
      mem_sget (st (do_enqueue name clock w j)) STORAGE_HASH (jid j) = Some (enc_job j')) as Henq.
    { intros w. unfold do_enqueue, w_save. eexists. split; [|split; [|cbn; rewrite mem_upsert_sget; unfold jid at 1; cbn;
        unfold jid; cbn; rewrite !String.eqb_refl; cbn; reflexivity]]; done. }
    destruct (stored (sw s) (jid j)) as [ex|]; [|apply Henq].
    destruct Hs as [Hs|[Hc Hs]]; [done|]. specialize (Hs ex eq_refl).
    assert (is_running ex = false) as Er by (unfold is_running; by apply bool_decide_eq_false).
    rewrite Hc, Er. cbn [negb andb]. destruct (re_run c && is_done ex); [apply Henq|].
    exists j. split; [done|]. split; [done|]. unfold w_put. cbn. rewrite mem_upsert_sget.
    by rewrite !String.eqb_refl.
  Qed.
  Lemma clash_lost (s : sys world MB) (j : job MB) (ja : job MA) c :
    alive s = true →
    stored (M := MA) (sw s) (jid j) = Some ja → stored (M := MB) (sw s) (jid j) = None →
    (∀ (m : MB) v, ser m = Some v → de (M := MA) v = None) →
    stored (M := MA) (sw (sys_step prof sched name (mem_h clock) s (EvEnqueue j c)).1) (jid j) = None.
  Proof.
    intros Ha _ Hb Hd. destruct (clash_overwrites s j c Ha (or_introl Hb)) as (j' & _ & _ & E).
    unfold stored. rewrite E. unfold enc_job. destruct (ser (data j')) as [v|] eqn:Ev; [|done].
    cbn -[enc_context]. destruct (dec_context (enc_context (ctx j'))); [|done].
    cbn. by rewrite (Hd _ _ Ev).
  Qed.
End clash.
