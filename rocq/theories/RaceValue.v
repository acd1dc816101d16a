(** Invariants of stored jobs, tasks and executions under races: as ValueFacts.v, but between any two
    calls of a step the storage may change and the clock may be read by others. *)
From Verif Require Import Spec SpecRace JsonFacts BackendFacts WorldFacts MicroFacts PickFacts FaultFacts ValueFacts ValueProps RaceFacts.

Section values.
  Context {M : Type} `{SM : Serde M}.
  Context (prof : profile).
  Context (sched : string → option (time → option time)).
  Context (name : string).
  Context (clock : nat → time).
  Implicit Types k : nat.
  (** [G] holds of stored jobs and [R] of a picked job.  Of the job a task picked and the job it has
      now, [U] holds while user code runs, and [V] after it.  [W] holds of the job that is settled, and
      of the verdict on its output. *)
  Context (G R : nat → job M → Prop).
  Context (U V : nat → job M → job M → Prop).
  Context (W : nat → bool → job M → Prop).

  Record pclosed : Prop := {
    r_mono k k' j : (k <= k')%nat → G k j → G k' j;
    r_monoR k k' j : (k <= k')%nat → R k j → R k' j;
    r_monoU k k' o j : (k <= k')%nat → U k o j → U k' o j;
    r_monoV k k' o j : (k <= k')%nat → V k o j → V k' o j;
    r_monoW k k' b j : (k <= k')%nat → W k b j → W k' b j;
    r_RG k j : R k j → G k j;
    r_WG k b j : W k b j → G k j;
    r_norm k j js j' : G k j → enc_job j = Some js → dec_job js = Some j' → G k j';
    r_enq k j : G k j → G (S k) (enq j (ms_of (clock k)));
    r_prc k k' j : G k j → is_ready j (clock k) = true → (k < k')%nat →
      R (S k') (prc j (ms_of (clock k')));
    r_bump k j : R k j → U k j (bump j);
    r_fin k j : W k false j → G (S k) (fin j (ms_of (clock k)));
    r_fai k j : W k true j → G (S k) (fai j (ms_of (clock k)));
    r_back k o j : R k o → V k o j → G (S k) (fai o (ms_of (clock k)));
    r_can k j : G k j → jstatus (ctx j) = Queued → G (S k) (can j (ms_of (clock k)));
    r_cron k k' b j e slot n cc aft up n' : W k b j → (k < k')%nat → jtype (ctx j) = Cron e slot n cc →
      sched e = Some aft → aft (clock k') = Some up → i32_norm prof (n + 1) = Some n' →
      (∀ m, max_repeat cc = Some m → n <= m) → (∀ t, end_at cc = Some t → clock k <= t) →
      G (S k') (set_ctx j (set_jtype (ctx j) (Cron e up n' cc)));
    r_retry k b j r r' t : W k b j → jretry (ctx j) = Some r → should_retry r = true →
      retry_retry_at prof r (clock k) = Some (r', t) → G (S k) (at_time (retried j r') t);
  }.
  Context (HC : pclosed).
  Notation goodv := (goodv G).
  Notation iv := (iv G).
  Notation vwithin := (vwithin G).
  Notation vsound := (vsound clock G).

  Fixpoint cr {A} k (p : prog A) (Q : nat → A → Prop) : Prop :=
    match p with
    | Ret a => Q k a
    | Panic | Diverge => True
    | Eff e f => ∀ k', (k <= k')%nat → vwithin k' e ∧ ∀ x, vsound k' e x → cr (vnext k' e) (f x) Q
    end.
  Lemma cr_mono {A} k (p : prog A) (Q Q' : nat → A → Prop) :
    (∀ k' a, (k <= k')%nat → Q k' a → Q' k' a) → cr k p Q → cr k p Q'.
  Proof.
    revert k. induction p as [a| | |X e f IH]; intros k H; cbn; auto. intros H1 k1 Hk1.
    destruct (H1 k1 Hk1) as [H2 H3]. split; [done|].
    intros x Hx. apply IH; [|by apply H3]. intros k' a Hk. apply H. etrans; [exact Hk1|]. etrans; [|exact Hk]. destruct e; cbn; lia.
  Qed.
  Lemma cr_bind {A B} k (p : prog A) (f : A → prog B) (Q : nat → B → Prop) :
    cr k p (λ k' a, cr k' (f a) Q) → cr k (bind p f) Q.
  Proof.
    revert k. induction p as [a| | |X e g IH]; intros k; cbn; auto. intros H k1 Hk1.
    destruct (H k1 Hk1) as [H1 H2]. split; [done|]. intros x Hx. by apply IH, H2.
  Qed.
  Lemma cr_then {A B} k (p : prog A) (f : A → prog B) (P : nat → A → Prop) (Q : nat → B → Prop) :
    cr k p P → (∀ k' a, (k <= k')%nat → P k' a → cr k' (f a) Q) → cr k (bind p f) Q.
  Proof. intros H1 H2. apply cr_bind. eapply cr_mono; [|exact H1]. done. Qed.
  Lemma cr_do {X : Set} k (e : eff X) (Q : nat → X → Prop) :
    (∀ k', (k <= k')%nat → vwithin k' e ∧ ∀ x, vsound k' e x → Q (vnext k' e) x) → cr k (do e) Q.
  Proof. done. Qed.

  (** *** Effects keep the invariant *)
  Lemma goodv_mono_r k k' key v : (k <= k')%nat → goodv k key v → goodv k' key v.
  Proof using HC. intros Hk H js j E1 E2. destruct (H js j E1 E2). split; [done|]. by eapply r_mono. Qed.
  Lemma iv_ext_r w w' :
    (reads w <= reads w')%nat →
    (∀ key, mem_sget (st w') STORAGE_HASH key = mem_sget (st w) STORAGE_HASH key) → iv w → iv w'.
  Proof using HC. intros Hk E H key v Hv. rewrite E in Hv. eapply goodv_mono_r; [exact Hk|]. by apply H. Qed.
  Lemma cr_effect {X : Set} (e : eff X) w :
    iv w → vwithin (reads w) e →
    let r := mem_h clock X e w in
    iv r.1 ∧ vsound (reads w) e r.2 ∧ reads r.1 = vnext (reads w) e.
  Proof using HC.
    intros Hi Hw. destruct e; cbn -[mem_push mem_move mem_remove mem_upsert mem_sget].
    - split; [|done]. apply (iv_ext_r w); [done| |done]. intros key. unfold mem_push. by case_match.
    - destruct (mem_move (st w) _ _ _ _ _) as [s r] eqn:E. cbn. split; [|done].
      apply (iv_ext_r w); [done| |done]. intros key. cbn.
      unfold mem_move in E. revert E. repeat case_match; by intros [= <- <-].
    - split; [|done]. apply (iv_ext_r w); [done| |done]. intros key. unfold mem_remove. by case_match.
    - done.
    - done.
    - cbn [vwithin] in Hw. split; [|done]. intros k' v'. cbn [st set_st reads]. rewrite mem_upsert_sget.
      destruct (String.eqb_spec STORAGE_HASH hash) as [<-|]; cbn [andb]; [|apply Hi].
      destruct (String.eqb_spec k' key) as [->|]; [|apply Hi]. intros [= <-]. by apply Hw.
    - split; [done|]. split; [|done]. destruct (mem_sget (st w) hash key) eqn:E; [|done]. intros ->. by apply Hi.
    - split; [|done]. apply (iv_ext_r w); [cbn; lia|done|done].
    - done.
  Qed.
  Definition le_reads (w w' : world) : Prop := (reads w <= reads w')%nat.
  Lemma cr_rg {A} k (p : prog A) (Q : nat → A → Prop) w :
    (∀ k' k'' a, (k' <= k'')%nat → Q k' a → Q k'' a) →
    (k <= reads w)%nat → cr k p Q → rg (mem_h clock) iv le_reads w p (λ w' a, Q (reads w') a).
  Proof using HC.
    intros HQ. revert k w. induction p as [a| | |X e f IH]; intros k w Hk; cbn -[mem_h]; try done.
    { by apply HQ. }
    intros H w1 Hl Hi. assert (k <= reads w1)%nat as Hk1 by (unfold le_reads in Hl; lia).
    destruct (H _ Hk1) as [H1 H2]. destruct (cr_effect e w1 Hi H1) as (E1 & E2 & E3).
    assert (reads w1 <= vnext (reads w1) e)%nat as Hv by (destruct e; cbn; lia).
    split; [split; [unfold le_reads; lia|done]|]. split.
    { eapply IH; [|by apply H2]. lia. }
    destruct (fail_ans e) as [bad|] eqn:Ef; [|done].
    assert (vsound (reads w1) e bad ∧ vnext (reads w1) e = reads w1) as [Hs Hn].
    { destruct e; try done; injection Ef as <-; done. }
    split; (eapply IH; [|by apply H2]); lia.
  Qed.

  (** *** The programs *)
  Local Notation T := (λ _ _, True).
  Ltac cr_eff := apply cr_bind, cr_do; intros ? ?; split; [done|cbn [ValueFacts.vsound vnext]].
  Local Hint Resolve List.Forall_nil : core.
  Notation Gs := (Gs G).
  Lemma Gs_mono_r k k' j : (k <= k')%nat → Gs k j → Gs k' j.
  Proof using HC. intros Hk [H|H]; [left; by eapply (r_mono HC)|by right]. Qed.
  Lemma Gs_G_r k j : G k j → Gs k j.
  Proof using. by left. Qed.
  Local Hint Resolve Gs_G_r : core.
  Lemma good_enc_r k (j : job M) : Gs k j → goodv k (jid j) (enc_job j).
  Proof using HC.
    intros [H|H] js j' E1 E2; [|by destruct (dec_enc_data _ _ _ E1 E2 H)].
    split; [|by eapply (r_norm HC)]. unfold jid. by rewrite (dec_enc_ctx _ _ _ E1 E2).
  Qed.
  Definition isj (P : nat → job M → Prop) k (r : result (job M)) : Prop :=
    match r with Ok j => P k j | Err _ => True end.
  Lemma cr_save k j : Gs k j → cr k (save_and_notify j) (isj (λ _ j', j' = j)).
  Proof using HC.
    intros H. unfold save_and_notify, upsert_to_storage. apply cr_bind, cr_do. intros k1 Hk1. split.
    { intros _. apply good_enc_r. by eapply Gs_mono_r. }
    intros [u|e] _; [|done]. intros k2 Hk2. split; [done|]. by intros x _.
  Qed.
  (** The stamp is some reading from [k] on. *)
  Lemma cr_now_save k (f : Z → job M) :
    (∀ k', (k <= k')%nat → Gs (S k') (f (ms_of (clock k')))) →
    cr k (let! t := get_now_as_ms in save_and_notify (f t))
      (isj (λ k' j', ∃ k1, (k <= k1 < k')%nat ∧ j' = f (ms_of (clock k1)))).
  Proof using HC.
    intros H. unfold get_now_as_ms, get_now. apply cr_bind, cr_bind, cr_do. intros k1 Hk1. split; [done|].
    intros x ->. cbn [bind vnext cr]. apply (cr_mono _ _ (isj (λ _ j', j' = f (ms_of (clock k1))))); [|apply cr_save; by apply H].
    intros k' [j'|e] Hk' Hj; [|done]. cbn in *. exists k1. split; [lia|done].
  Qed.
  Lemma cr_job_enqueue k j : Gs k j → cr k (job_enqueue j) T.
  Proof using HC.
    intros H. unfold job_enqueue. eapply cr_mono; [|apply (cr_now_save k (enq j))]; [done|].
    intros k' Hk'. apply (Gs_mono_r _ _ _ Hk') in H. destruct H; [left; by apply (r_enq HC)|by right].
  Qed.
  Lemma cr_get k id :
    cr k (get_from_storage (M := M) id)
      (λ k' r, match r with Ok (Some j) => jid j = id ∧ G k' j | _ => True end).
  Proof using.
    unfold get_from_storage. apply cr_bind, cr_do. intros k1 Hk1. split; [done|].
    intros r Hr. cbn in *. destruct r as [[[js|]|]|e]; try done.
    destruct (dec_job js) eqn:E; [|done]. by eapply Hr.
  Qed.
  Lemma cr_enqueue k j : Gs k j → cr k (enqueue name j) T.
  Proof using HC.
    intros H. unfold enqueue. cr_eff. intros [u|e] _; [|done].
    eapply cr_then; [apply cr_job_enqueue; by eapply Gs_mono_r|]. by intros k1 [u'|e] _ _.
  Qed.
  Lemma cr_re_enqueue k j : Gs k j → cr k (re_enqueue name j) T.
  Proof using HC.
    intros H. unfold re_enqueue. cr_eff. intros [u|e] _; [|done].
    eapply cr_then; [apply cr_job_enqueue; by eapply Gs_mono_r|]. intros k1 [u'|e] _ _; [|done]. cr_eff. done.
  Qed.
  Lemma cr_run k j c : Gs k j → cr k (run_with_config name j c) T.
  Proof using HC.
    intros H. unfold run_with_config. eapply cr_then; [by apply cr_get|].
    intros k' [[ex|]|e] Hk _; [| |done].
    - apply (cr_then _ _ _ T).
      + destruct (override_data c && negb (is_running ex)); [|done].
        apply cr_do. intros k1 Hk1. split; [|done]. intros _. apply good_enc_r. eapply Gs_mono_r; [|exact H]. lia.
      + intros k1 [u|e] Hk1 _; [|done]. destruct (re_run c && is_done ex); [|done].
        eapply cr_then; [apply cr_enqueue; eapply Gs_mono_r; [|exact H]; lia|]. by intros k2 [u'|e] _ _.
    - apply cr_enqueue. by eapply Gs_mono_r.
  Qed.
  Lemma cr_finished k j : W k false j → cr k (mark_job_is_finished name j) T.
  Proof using HC.
    intros H. unfold mark_job_is_finished, remove_processing_job. apply cr_bind. cr_eff.
    intros _ _. cbn [cr]. eapply cr_then; [apply (cr_now_save _ (fin j)); intros k1 Hk1; left; apply (r_fin HC);
      eapply (r_monoW HC); [|exact H]; lia|].
    intros k2 [j'|e] _ _; [|done]. cr_eff. done.
  Qed.
  Lemma cr_failed k j :
    (∀ k', (k <= k')%nat → G (S k') (fai j (ms_of (clock k')))) → cr k (mark_job_is_failed name j) T.
  Proof using HC.
    intros H. unfold mark_job_is_failed, push_failed_job, remove_processing_job.
    eapply cr_then; [apply (cr_now_save k (fai j)); intros k1 Hk1; left; by apply H|].
    intros k' [j'|e] _ _; [|done]. apply cr_bind, cr_bind. cr_eff. intros _ _. cr_eff. done.
  Qed.
  Lemma cr_next_tick k b j :
    W k b j → cr k (next_tick prof sched j) (λ k' o, match o with Some j' => G k' j' | None => True end).
  Proof using HC.
    intros H. unfold next_tick, get_now. apply cr_bind, cr_do. intros k1 Hk1. split; [done|]. intros now ->. cbn [vnext].
    destruct (jtype (ctx j)) as [| |expr slot total cc] eqn:Et; try done.
    destruct (sched expr) as [aft|] eqn:Es; [|done].
    apply cr_bind, cr_do. intros k2 Hk2. split; [done|]. intros now2 ->. cbn [vnext]. cbv zeta.
    assert (W k1 b j) as H1 by by eapply (r_monoW HC).
    assert (G (S k2) j) as Hj.
    { eapply (r_mono HC); [|by eapply (r_WG HC)]. lia. }
    destruct (aft (clock k2)) as [up|] eqn:Ea.
    - destruct (i32_norm prof (total + 1)) as [n'|] eqn:En; [|done].
      destruct (max_repeat cc) as [m|] eqn:Em; [destruct (Z.ltb_spec m total); [done|]|];
        (destruct (end_at cc) as [t|] eqn:Ee; [destruct (Z.ltb_spec t (clock k1)); [done|]|]);
        cbn; (eapply (r_cron HC); [exact H1|exact Hk2|exact Et|exact Es|exact Ea|exact En|..]; intros x Ex; first [rewrite Em in Ex|rewrite Ee in Ex]; by simplify_eq).
    - destruct (match max_repeat cc with Some m => m <? total | None => false end); [done|].
      by destruct (match end_at cc with Some e => e <? clock k1 | None => false end).
  Qed.
  Lemma R_mono_r k k' ts : (k <= k')%nat → Forall (R k) ts → Forall (R k') ts.
  Proof using HC.
    intros Hk H. eapply list.Forall_impl; [exact H|]. intros t. by eapply (r_monoR HC).
  Qed.
  Local Notation jobs := (λ k' r, match r with Ok js => Forall (R k') js | Err _ => True end).
  Lemma cr_pick_batch k total ids ready :
    Forall (R k) ready → cr k (pick_batch name total ids ready) jobs.
  Proof using HC.
    revert k ready. induction ids as [|id ids IH]; intros k ready Hr; cbn [pick_batch]; [done|].
    assert (∀ k', (k <= k')%nat → cr k' (let? _ := do (QMove (format_queue_name name Queued) (format_queue_name name Queued) 1 Back Front) in
      pick_batch name total ids ready) jobs) as Hrot.
    { intros k' Hk. cr_eff. intros [l|e] _; [|done]. eapply IH, R_mono_r; [|exact Hr]. lia. }
    eapply cr_then; [apply cr_get|]. intros k1 [[j|]|e] Hk1 Hj; [|by apply Hrot|done].
    unfold get_now. apply cr_bind, cr_do. intros k2 Hk2. split; [done|]. intros now ->. cbn [vnext].
    destruct (is_ready j (clock k2)) eqn:Erd; cbn [andb]; [|by apply Hrot; lia].
    destruct (_ && _); [|by apply Hrot; lia]. destruct Hj as [_ Hj].
    assert (G k2 j) as Hj2 by by eapply (r_mono HC).
    eapply cr_then; [apply (cr_now_save (S k2) (prc j))|].
    { intros k3 Hk3. left. apply (r_RG HC). eapply (r_prc HC); [exact Hj2|done|lia]. }
    intros k3 [j'|e] Hk3 Hj'; [|done]. destruct Hj' as (k4 & Hk4 & ->). cr_eff. intros [l|e] _; [|done]. apply IH.
    apply Forall_app. split; [eapply R_mono_r; [|exact Hr]; lia|]. constructor; [|constructor].
    eapply (r_monoR HC); [|eapply (r_prc HC); [exact Hj2|done|]]; lia.
  Qed.
  Lemma cr_pick_loop k fuel total ready cursor :
    Forall (R k) ready → cr k (pick_loop prof name fuel total ready cursor) jobs.
  Proof using HC.
    revert k ready cursor. induction fuel as [|fuel IH]; intros k ready cursor Hr; [done|]. cbn [pick_loop].
    cr_eff. intros [ids|e] _; [|done].
    destruct (i32_norm prof _) as [cursor'|]; [|done].
    eapply cr_then; [apply cr_pick_batch; by eapply R_mono_r|]. intros k1 [ready'|e] _ Hr'; [|done].
    destruct (_ <=? _)%nat; [done|]. destruct (_ <=? _); [done|]. by apply IH.
  Qed.
  (** What holds of the job of a task depends on how far the task is. *)
  Definition pj (f : phase) k (o j : job M) : Prop :=
    match f with Spawned | Hooked => j = o | InUser => U k o j | AfterHook => V k o j end.
  Definition tp k (t : task M) : Prop := R k (t_orig t) ∧ pj (t_phase t) k (t_orig t) (t_job t).
  Definition ran k (j : job M) : Prop := ∃ o, R k o ∧ U k o j.
  Lemma ran_mono1 k k' j : (k <= k')%nat → ran k j → ran k' j.
  Proof using HC. intros Hk (o & H1 & H2). exists o. split; [by eapply (r_monoR HC)|by eapply (r_monoU HC)]. Qed.
  Lemma ran_mono k k' js : (k <= k')%nat → Forall (ran k) js → Forall (ran k') js.
  Proof using HC. intros Hk H. eapply list.Forall_impl; [exact H|]. intros j. by apply ran_mono1. Qed.
  Lemma tp_mono1 k k' t : (k <= k')%nat → tp k t → tp k' t.
  Proof using HC.
    intros Hk [H1 H2]. split; [by eapply (r_monoR HC)|]. destruct (t_phase t); cbn [pj] in *;
      first [done|by apply (r_monoU HC k)|by apply (r_monoV HC k)].
  Qed.
  Lemma tp_mono k k' ts : (k <= k')%nat → Forall (tp k) ts → Forall (tp k') ts.
  Proof using HC. intros Hk H. eapply list.Forall_impl; [exact H|]. intros t. by apply tp_mono1. Qed.
  (** What user code may answer at the end of an execution that has left [j]. *)
  Definition ptail k (j : job M) (u : user_result M) : Prop :=
    (jretry (ctx j) = None ∨ (∃ b, ur_retry u = DefaultRetryAt b) → W k (ur_failed u) j) ∧
    (∀ r r' o, jretry (ctx j) = Some r → ur_retry u = CustomRetryAt r' o →
      W k (ur_failed u) (retried j r') ∧ ∀ t, o = Some t → G k (at_time (retried j r') t)).
  Definition ptask k (t : task M) (u : user_result M) : Prop :=
    (t_phase t = InUser → V k (t_orig t) (set_data (t_job t) (ur_data u))) ∧
    (t_phase t = AfterHook → ptail k (t_job t) u).
  Lemma cr_tail k o j u : R k o → V k o j →
    (∀ k', (k <= k')%nat → ptail k' j u) → cr k (task_tail prof sched name o j u) T.
  Proof using HC.
    intros Ho Hv Hu. unfold task_tail. apply (cr_then _ _ _ T).
    - assert (∀ k' j', W k' (ur_failed u) j' → cr k' (execute_finish prof sched name j' (ur_failed u)) T) as Hfin.
      { intros k' j' Hj'. unfold execute_finish. apply cr_bind.
        eapply cr_mono; [|by eapply cr_next_tick].
        intros k'' [nj|] Hk Hn; [by apply cr_re_enqueue; left|].
        assert (W k'' (ur_failed u) j') as Hw by by eapply (r_monoW HC).
        destruct (ur_failed u); [|by apply cr_finished].
        apply cr_failed. intros k3 Hk3. apply (r_fai HC). by eapply (r_monoW HC). }
      destruct (Hu k (Nat.le_refl _)) as [Hd Hc].
      unfold execute_tail. destruct (jretry (ctx j)) as [r|] eqn:Er; [|apply Hfin, Hd; auto].
      unfold call_retry_at. destruct (ur_retry u) as [failed|r' o'] eqn:Eu.
      + assert (W k (ur_failed u) j) as Hj by (apply Hd; eauto).
        destruct (failed && should_retry r) eqn:Es.
        * apply andb_true_iff in Es as [_ Es]. apply cr_bind. unfold get_now.
          apply cr_bind, cr_do. intros k1 Hk1. split; [done|]. intros now ->. cbn [vnext].
          destruct (retry_retry_at prof r (clock k1)) as [[r' t]|] eqn:Ea; [|done]. cbn [cr].
          apply cr_re_enqueue. left. eapply (r_retry HC); [by eapply (r_monoW HC)|done|done|done].
        * cbn [cr bind]. apply Hfin.
          assert (retried j r = j) as E.
          { destruct j as [[]]. cbn in Er |- *. by rewrite Er. }
          fold (retried j r). by rewrite E.
      + cbn [cr bind]. destruct (Hc r r' o' eq_refl eq_refl) as [H1 H2].
        destruct o' as [t|]; [apply cr_re_enqueue; left; by apply (H2 t)|by apply Hfin].
    - intros k' [u'|e] Hk _; [done|]. eapply cr_then; [apply cr_failed; intros k3 Hk3|done].
      apply (r_back HC _ _ j); [eapply (r_monoR HC); [|exact Ho]|eapply (r_monoV HC); [|exact Hv]]; lia.
  Qed.
  Lemma cr_task_step k t u :
    tp k t → (∀ k', (k <= k')%nat → ptask k' t u) →
    cr k (task_step prof sched name t u)
      (λ k' r, match r.1 with Some t' => tp k' t' | None => True end ∧ Forall (ran k') r.2).
  Proof using HC.
    intros [Ho Hj] Hu. unfold task_step. destruct (t_phase t) eqn:Ep; cbn [pj] in Hj.
    - destruct (is_cancelled (t_job t)).
      + unfold mark_job_is_canceled. apply cr_bind. cr_eff. intros x _. cbn [cr bind]. by repeat constructor.
      + unfold plugin_before. cr_eff. intros x _. cbn [cr bind]. split; [split; [by eapply (r_monoR HC)|done]|constructor].
    - cbn [cr]. rewrite Hj. cbn. assert (U k (t_orig t) (bump (t_orig t))) by by apply (r_bump HC).
      split; [done|]. constructor; [|constructor]. by exists (t_orig t).
    - unfold plugin_after. apply cr_bind, cr_do. intros k1 Hk1. split; [done|]. intros x _. cbn [cr vnext].
      split; [split; [by eapply (r_monoR HC)|]|constructor]. cbn. destruct (Hu k1 Hk1) as [Hu1 _]. by apply Hu1.
    - eapply cr_then; [apply cr_tail; [done|done|]; intros k1 Hk1; by destruct (Hu k1 Hk1) as [_ Hu1]; apply Hu1|].
      intros k' r _ _. cbn [cr]. by repeat constructor.
  Qed.
End values.

Section family.
  Context {M : Type} `{SM : Serde M}.
  Context (prof : nat → profile).
  Context (sched : nat → string → option (time → option time)).
  Context (name : nat → string).
  Context (clock : nat → nat → time).
  Implicit Types i k : nat.
  Context (G : nat → job M → Prop) (R : nat → nat → job M → Prop).
  Context (U V : nat → nat → job M → job M → Prop).
  Context (W : nat → nat → bool → job M → Prop).
  Context (HC : ∀ i, pclosed (prof i) (sched i) (clock i) G (R i) (U i) (V i) (W i)).
  Notation cr i := (cr (clock i) G).
  Local Notation T := (λ _ _, True).

  Definition pev_ok i k (ts : list (task M)) (e : event M) : Prop :=
    match e with
    | EvEnqueue j _ => Gs G k j
    | EvTask n u => ∀ t, ts !! n = Some t → ∀ k', (k <= k')%nat → ptask G (V i) (W i) k' t u
    | _ => True
    end.
  Definition get_ok k (e : event M) (a : response M) : Prop :=
    ∀ id j, e = EvGet id → a = RJob (Some j) → jid j = id ∧ G k j.
  Definition vpost i (e : event M) k (r : step_result) : Prop :=
    Forall (tp (R i) (U i) (V i) k) r.1.1.2 ∧ Forall (ran (R i) (U i) k) r.1.2 ∧ get_ok k e r.2.

  Lemma cr_do_tick i n k c ts :
    Forall (tp (R i) (U i) (V i) k) ts → cr i k (do_tick prof name n i c ts) (λ k', Forall (tp (R i) (U i) (V i) k')).
  Proof using HC.
    intros Ht. unfold do_tick, pick_jobs. apply cr_bind, cr_bind, cr_do. intros k1 Hk1. split; [done|].
    intros r _. cbv zeta. cbn [vnext]. destruct (_ <=? _)%nat.
    { cbn. rewrite app_nil_r. by eapply (tp_mono _ _ _ _ _ _ _ _ (HC i)). }
    unfold try_pick. apply cr_bind, cr_do. intros k2 Hk2. split; [done|].
    intros [len|e] _; cbn [vnext].
    - eapply cr_mono; [|by apply (cr_pick_loop _ _ _ _ _ _ _ _ _ (HC i))].
      intros k' [js|e] Hk Hjs; cbn; [|eapply (tp_mono _ _ _ _ _ _ _ _ (HC i)); [|exact Ht]; lia].
      apply Forall_app. split; [eapply (tp_mono _ _ _ _ _ _ _ _ (HC i)); [|exact Ht]; lia|].
      apply Forall_map. eapply list.Forall_impl; [exact Hjs|]. by intros j Hj.
    - cbn. eapply (tp_mono _ _ _ _ _ _ _ _ (HC i)); [|exact Ht]; lia.
  Qed.
  Lemma cr_step_of i n k c ts e :
    Forall (tp (R i) (U i) (V i) k) ts → pev_ok i k ts e →
    cr i k (step_of prof sched name n i c ts e) (vpost i e).
  Proof using HC.
    intros Ht He.
    assert (∀ k', (k <= k')%nat → Forall (tp (R i) (U i) (V i) k') ts) as Ht'.
    { intros. by eapply (tp_mono _ _ _ _ _ _ _ _ (HC i)). }
    assert (∀ k' e', (k <= k')%nat → (∀ id, e' ≠ EvGet id) → ∀ a c, vpost i e' k' (c, ts, [], a)) as Hdone.
    { intros k' e' Hk Hne a c'. split; [by apply Ht'|]. split; [constructor|]. intros id j ->. by destruct (Hne id). }
    destruct e as [j ec|id|id|id|c'| |n' u| | |e' n'|]; cbn [step_of ev_prog].
    - eapply cr_then; [by apply (cr_run _ _ _ _ _ _ _ _ _ (HC i))|]. intros k' r Hk _. by apply Hdone.
    - apply (cr_then _ _ _ _ _ T).
      + unfold cancel_job. eapply cr_then; [apply (cr_get (clock i))|]. intros k' [[j|]|e] _ Hj; try done.
        destruct (is_queued j) eqn:Eq; [|done]. apply bool_decide_eq_true in Eq.
        eapply cr_then; [apply (cr_now_save _ _ _ _ _ _ _ _ (HC i) k' (can j)); intros k1 Hk1; left; apply (r_can _ _ _ _ _ _ _ _ (HC i)); [|done];
          eapply (r_mono _ _ _ _ _ _ _ _ (HC i)); [exact Hk1|]; by destruct Hj|].
        intros k1 [j'|e] _ _; [|done]. apply cr_bind, cr_do. intros k2 Hk2. split; [done|]. by intros [u|e] _.
      + intros k' r Hk _. by apply Hdone.
    - eapply cr_then; [apply (cr_get (clock i))|]. intros k' [[j|]|e] Hk Hj; (split; [by apply Ht'|]); (split; [constructor|]); intros ?? [= <-]; by intros [= <-].
    - apply (cr_then _ _ _ _ _ T).
      + unfold retry_job. eapply cr_then; [apply (cr_get (clock i))|]. intros k' [[j|]|e] _ Hj; try done.
        destruct (is_done j); [|done]. eapply cr_then; [apply (cr_re_enqueue _ _ _ _ _ _ _ _ _ (HC i)); left; by destruct Hj|]. by intros k1 [u|e] _ _.
      + intros k' r Hk _. by apply Hdone.
    - by apply Hdone.
    - eapply cr_then; [by apply cr_do_tick|]. intros k' ts' _ Hts. split; [done|]. by split; [constructor|].
    - destruct (ts !! n') as [t|] eqn:Et; [|by apply Hdone].
      eapply cr_then; [apply (cr_task_step _ _ _ _ _ _ _ _ _ (HC i)); [by eapply Forall_lookup_1|by apply He]|].
      intros k' [[t'|] js] Hk [H1 H2]; cbn in *; (split; [|by split]).
      + apply Forall_insert; [by apply Ht'|done].
      + apply Forall_delete. by apply Ht'.
    - split; [constructor|]. by split; [constructor|].
    - split; [constructor|]. by split; [constructor|].
    - split; [constructor|]. by split; [constructor|].
    - eapply cr_then; [apply cr_do_tick; constructor|]. intros k' ts' _ Hts. split; [done|]. by split; [constructor|].
  Qed.

  (** *** Races *)
  Notation mem := (λ i, mem_h (clock i)).
  Definition pinv : race M world → Prop :=
    rinv mem (iv G) le_reads (λ i w, Forall (tp (R i) (U i) (V i) (reads w))) (λ i w, ran (R i) (U i) (reads w))
      (λ i w, get_ok (reads w)).
  Definition pcond (r : race M world) (x : race_event M) : Prop :=
    match x with
    | RBegin i e n => ∀ p, r_procs r !! i = Some p → pev_ok i (reads (r_world r)) (p_tasks p) e
    | _ => True
    end.
  Lemma pinv_step r x : pinv r → pcond r x → pinv (race_step prof sched name mem r x).
  Proof using HC.
    intros Hr Hx.
    assert (∀ i w w' ts, le_reads w w' → Forall (tp (R i) (U i) (V i) (reads w)) ts → Forall (tp (R i) (U i) (V i) (reads w')) ts) as H1.
    { intros i w w' ts Hl. by apply (tp_mono _ _ _ _ _ _ _ _ (HC i)). }
    assert (∀ i w w' j, le_reads w w' → ran (R i) (U i) (reads w) j → ran (R i) (U i) (reads w') j) as H2.
    { intros i w w' j Hl. by apply (ran_mono1 _ _ _ _ _ _ _ _ (HC i)). }
    assert (∀ (i : nat) w w' e a, le_reads w w' → get_ok (reads w) e a → get_ok (reads w') e a) as H3.
    { intros i w w' e a Hl H id j E1 E2. destruct (H id j E1 E2). split; [done|].
      by eapply (r_mono _ _ _ _ _ _ _ _ (HC 0%nat)). }
    apply rinv_step; try done.
    - intros w. unfold le_reads. lia.
    - intros w1 w2 w3. unfold le_reads. lia.
    - destruct x as [i e n|i f|i]; try done. intros p Hp Ht.
      apply (cr_rg _ _ _ _ _ _ _ _ (HC i) (reads (r_world r)) _ (vpost i e)); [|done|].
      + intros k' k'' [[[c ts] js] a] Hk (A1 & A2 & A3). split; [|split].
        * by eapply (tp_mono _ _ _ _ _ _ _ _ (HC i)).
        * by eapply (ran_mono _ _ _ _ _ _ _ _ (HC i)).
        * intros id j E1 E2. destruct (A3 id j E1 E2). split; [done|]. by eapply (r_mono _ _ _ _ _ _ _ _ (HC i)).
      + apply cr_step_of; [done|]. by apply Hx.
  Qed.
  Lemma pinv_init n : pinv (race_init world_empty n).
  Proof using.
    split; [|split; [|split; constructor]].
    - intros key v H. done.
    - intros i p Hp. apply init_idle in Hp as ->. split; [constructor|done].
  Qed.
  Lemma pinv_stored r id (j : job M) :
    pinv r → stored (r_world r) id = Some j → jid j = id ∧ G (reads (r_world r)) j.
  Proof using.
    intros (Hi & _) H. unfold stored in H. destruct (mem_sget (st (r_world r)) STORAGE_HASH id) as [[js|]|] eqn:E; try done.
    by eapply (Hi id).
  Qed.
  Lemma pinv_task r i k t : pinv r → has_task r i k t → tp (R i) (U i) (V i) (reads (r_world r)) t.
  Proof using.
    intros (_ & H & _) (p & Hp & Ht). destruct (H i p Hp) as [H1 _].
    exact (Forall_lookup_1 _ _ _ _ H1 Ht).
  Qed.
  (** The result of an instance. *)
  Lemma pinstance (Q : race M world → race_event M → Prop) n xs :
    (∀ r x, pinv r → Q r x → pcond r x) →
    ralong prof sched name clock Q (race_init world_empty n) xs →
    let r := race_after prof sched name clock n xs in
    let k := reads (r_world r) in
    (∀ id (j : job M), stored (r_world r) id = Some j → jid j = id ∧ G k j) ∧
    (∀ i j, (i, j) ∈ r_runs r → ran (R i) (U i) k j) ∧
    (∀ i id j, (i, EvGet id, RJob (Some j)) ∈ r_answers r → jid j = id ∧ G k j).
  Proof using HC.
    intros HQ Ha r k.
    assert (pinv r) as Hi.
    { apply (ralong_inv prof sched name clock pinv Q); [|apply pinv_init|exact Ha]. intros r' x Hr Hx. apply pinv_step; [done|]. by apply HQ. }
    split; [intros id j Hj; by eapply pinv_stored|]. destruct Hi as (_ & _ & H1 & H2). split.
    - intros i j Hj. rewrite list.Forall_forall in H1. by apply (H1 (i, j)).
    - intros i id j Hj. rewrite list.Forall_forall in H2. by eapply (H2 (i, EvGet id, RJob (Some j))).
  Qed.
End family.

(** *** One predicate for the whole execution *)
Section plain.
  Context {M : Type} `{SM : Serde M}.
  Context (prof : profile).
  Context (sched : string → option (time → option time)).
  Context (clock : nat → time).
  Implicit Types k : nat.
  Context (G R : nat → job M → Prop).
  Record rclosed : Prop := {
    q_mono k k' j : (k <= k')%nat → G k j → G k' j;
    q_monoR k k' j : (k <= k')%nat → R k j → R k' j;
    q_RG k j : R k j → G k j;
    q_norm k j js j' : G k j → enc_job j = Some js → dec_job js = Some j' → G k j';
    q_enq k j : G k j → G (S k) (enq j (ms_of (clock k)));
    q_prc k k' j : G k j → is_ready j (clock k) = true → (k < k')%nat →
      R (S k') (prc j (ms_of (clock k')));
    q_bump k j : R k j → R k (bump j);
    q_fin k j : R k j → G (S k) (fin j (ms_of (clock k)));
    q_fai k j : R k j → G (S k) (fai j (ms_of (clock k)));
    q_can k j : G k j → jstatus (ctx j) = Queued → G (S k) (can j (ms_of (clock k)));
    q_cron k k' j e slot n cc aft up n' : R k j → (k < k')%nat → jtype (ctx j) = Cron e slot n cc →
      sched e = Some aft → aft (clock k') = Some up → i32_norm prof (n + 1) = Some n' →
      (∀ m, max_repeat cc = Some m → n <= m) → (∀ t, end_at cc = Some t → clock k <= t) →
      G (S k') (set_ctx j (set_jtype (ctx j) (Cron e up n' cc)));
    q_retry k j r r' t : R k j → jretry (ctx j) = Some r → should_retry r = true →
      retry_retry_at prof r (clock k) = Some (r', t) → G (S k) (at_time (retried j r') t);
  }.
  Lemma rclosed_p : rclosed → pclosed prof sched clock G R (λ k _ j, R k j) (λ k _ j, R k j) (λ k _ j, R k j).
  Proof. intros []. split; eauto. Qed.
End plain.

Section plains.
  Context {M : Type} `{SM : Serde M}.
  Context (prof : nat → profile).
  Context (sched : nat → string → option (time → option time)).
  Context (name : nat → string).
  Context (clock : nat → nat → time).
  Context (G : nat → job M → Prop) (R : nat → nat → job M → Prop).
  Definition vinv : race M world → Prop := pinv clock G R (λ i k _ j, R i k j) (λ i k _ j, R i k j).
  Definition rev_ok (i k : nat) (ts : list (task M)) (e : event M) : Prop :=
    match e with
    | EvEnqueue j _ => Gs G k j
    | EvTask n u => ∀ t, ts !! n = Some t → ∀ k', (k <= k')%nat → task_ok G (R i) k' t u
    | _ => True
    end.
  Definition rcond (r : race M world) (x : race_event M) : Prop :=
    match x with
    | RBegin i e n => ∀ p, r_procs r !! i = Some p → rev_ok i (reads (r_world r)) (p_tasks p) e
    | _ => True
    end.
  Lemma vinv_task r i k t : vinv r → has_task r i k t → R i (reads (r_world r)) (t_job t).
  Proof.
    intros Hv Ht. destruct (pinv_task _ _ _ _ _ _ _ _ _ Hv Ht) as [H0 H]. by destruct (t_phase t); cbn in H; rewrite ?H.
  Qed.
  Lemma rinstance (Q : race M world → race_event M → Prop) n xs :
    (∀ i, rclosed (prof i) (sched i) (clock i) G (R i)) →
    (∀ r x, vinv r → Q r x → rcond r x) →
    ralong prof sched name clock Q (race_init world_empty n) xs →
    let r := race_after prof sched name clock n xs in
    let k := reads (r_world r) in
    (∀ id (j : job M), stored (r_world r) id = Some j → jid j = id ∧ G k j) ∧
    (∀ i j, (i, j) ∈ r_runs r → R i k j) ∧
    (∀ i id j, (i, EvGet id, RJob (Some j)) ∈ r_answers r → jid j = id ∧ G k j).
  Proof.
    intros HC HQ Ha.
    destruct (pinstance prof sched name clock G R (λ i k _ j, R i k j) (λ i k _ j, R i k j) (λ i k _ j, R i k j)) with
      (Q := Q) (n := n) (xs := xs) as (H1 & H2 & H3); [..|done|].
    - intros i. by apply rclosed_p.
    - intros r x Hv Hx. pose proof (HQ r x Hv Hx) as H. destruct x as [i e m| |]; try done.
      intros p Hp. specialize (H p Hp). destruct e as [| | | | | |k u| | | |]; try done.
      intros t Ht k' Hk'. destruct (H t Ht k' Hk') as [A1 A2]. split; [done|]. intros Hf. split.
      + intros _. eapply (q_monoR _ _ _ _ _ (HC i)); [exact Hk'|]. eapply vinv_task; [exact Hv|]. by exists p.
      + intros r0 r' o Er Eu. by eapply A2.
    - split; [done|]. split; [|done]. intros i j Hj. by destruct (H2 i j Hj) as (o & _ & H).
  Qed.
End plains.
