(** Invariants of the stored jobs, the tasks and the executions that hold whatever backend calls fail
    and wherever the process dies. *)
From Verif Require Import Spec SpecValue JsonFacts BackendFacts WorldFacts MicroFacts FaultFacts.

Section values.
  Context {M : Type} `{SM : Serde M}.
  Context (prof : profile).
  Context (sched : string → option (time → option time)).
  Context (name : string).
  Context (clock : nat → time).
  Implicit Types k : nat.
  (** [G k]: jobs that may be stored when the clock was read k times; [R k]: jobs in tasks. *)
  Context (G R : nat → job M → Prop).

  Definition retried (j : job M) (r : retry) : job M := set_ctx j (set_jretry (ctx j) (Some r)).
  Definition at_time (j : job M) (t : time) : job M := set_ctx j (set_jtype (ctx j) (ScheduledAt t)).

  Record closed : Prop := {
    c_mono k k' j : (k <= k')%nat → G k j → G k' j;
    c_monoR k k' j : (k <= k')%nat → R k j → R k' j;
    c_RG k j : R k j → G k j;
    c_norm k j js j' : G k j → enc_job j = Some js → dec_job js = Some j' → G k j';
    c_enq k j : G k j → G (S k) (enq j (ms_of (clock k)));
    c_prc k j : G k j → is_ready j (clock k) = true →
      R (S (S k)) (prc j (ms_of (clock (S k))));
    c_bump k j : R k j → R k (bump j);
    c_fin k j : R k j → G (S k) (fin j (ms_of (clock k)));
    c_fai k j : R k j → G (S k) (fai j (ms_of (clock k)));
    c_can k j : G k j → jstatus (ctx j) = Queued → G (S k) (can j (ms_of (clock k)));
    c_cron k j e slot n cc aft up n' : R k j → jtype (ctx j) = Cron e slot n cc →
      sched e = Some aft → aft (clock (S k)) = Some up → i32_norm prof (n + 1) = Some n' →
      (∀ m, max_repeat cc = Some m → n <= m) → (∀ t, end_at cc = Some t → clock k <= t) →
      G (S (S k)) (set_ctx j (set_jtype (ctx j) (Cron e up n' cc)));
    c_retry k j r r' t : R k j → jretry (ctx j) = Some r → should_retry r = true →
      retry_retry_at prof r (clock k) = Some (r', t) → G (S k) (at_time (retried j r') t);
  }.
  Context (HC : closed).

  Definition goodv k (key : string) (v : value) : Prop :=
    ∀ js (j : job M), v = Some js → dec_job js = Some j → jid j = key ∧ G k j.
  Definition iv (w : world) : Prop :=
    ∀ key v, mem_sget (st w) STORAGE_HASH key = Some v → goodv (reads w) key v.

  Definition vwithin k {X : Set} (e : eff X) : Prop :=
    match e with SUpsert h key v => h = STORAGE_HASH → goodv k key v | _ => True end.
  Definition vsound k {X : Set} (e : eff X) : X → Prop :=
    match e in eff X return X → Prop with
    | SGet h key => λ r, match r with Ok (Some v) => h = STORAGE_HASH → goodv k key v | _ => True end
    | Now => λ t, t = clock k
    | _ => λ _, True
    end.
  Definition vnext k {X : Set} (e : eff X) : nat := match e with Now => S k | _ => k end.
  Fixpoint cf {A} k (p : prog A) (Q : nat → A → Prop) : Prop :=
    match p with
    | Ret a => Q k a
    | Panic | Diverge => True
    | Eff e f => vwithin k e ∧ ∀ x, vsound k e x → cf (vnext k e) (f x) Q
    end.

  Lemma cf_mono {A} k (p : prog A) (Q Q' : nat → A → Prop) :
    (∀ k' a, (k <= k')%nat → Q k' a → Q' k' a) → cf k p Q → cf k p Q'.
  Proof.
    revert k. induction p as [a| | |X e f IH]; intros k H; cbn; auto. intros [H1 H2]. split; [done|].
    intros x Hx. apply IH; [|by apply H2]. intros k' a Hk. apply H. etrans; [|exact Hk]. destruct e; cbn; lia.
  Qed.
  Lemma cf_bind {A B} k (p : prog A) (f : A → prog B) (Q : nat → B → Prop) :
    cf k p (λ k' a, cf k' (f a) Q) → cf k (bind p f) Q.
  Proof.
    revert k. induction p as [a| | |X e g IH]; intros k; cbn; auto. intros [H1 H2]. split; [done|].
    intros x Hx. by apply IH, H2.
  Qed.
  (** Bind with weakening in one step. *)
  Lemma cf_then {A B} k (p : prog A) (f : A → prog B) (P : nat → A → Prop) (Q : nat → B → Prop) :
    cf k p P → (∀ k' a, (k <= k')%nat → P k' a → cf k' (f a) Q) → cf k (bind p f) Q.
  Proof. intros H1 H2. apply cf_bind. eapply cf_mono; [|exact H1]. done. Qed.
  Lemma cf_do {X : Set} k (e : eff X) (Q : nat → X → Prop) :
    vwithin k e → (∀ x, vsound k e x → Q (vnext k e) x) → cf k (do e) Q.
  Proof. done. Qed.

  (** *** Effects keep the invariant *)
  Lemma goodv_mono k k' key v : (k <= k')%nat → goodv k key v → goodv k' key v.
  Proof using HC. intros Hk H js j E1 E2. destruct (H js j E1 E2). split; [done|]. by eapply c_mono. Qed.
  Lemma iv_ext w w' :
    (reads w <= reads w')%nat →
    (∀ key, mem_sget (st w') STORAGE_HASH key = mem_sget (st w) STORAGE_HASH key) → iv w → iv w'.
  Proof using HC. intros Hk E H key v Hv. rewrite E in Hv. eapply goodv_mono; [exact Hk|]. by apply H. Qed.
  Lemma cf_effect {X : Set} (e : eff X) w :
    iv w → vwithin (reads w) e →
    let r := mem_h clock X e w in
    iv r.1 ∧ vsound (reads w) e r.2 ∧ reads r.1 = vnext (reads w) e.
  Proof using HC.
    intros Hi Hw. destruct e; cbn -[mem_push mem_move mem_remove mem_upsert mem_sget].
    - split; [|done]. apply (iv_ext w); [done| |done]. intros key. unfold mem_push. by case_match.
    - destruct (mem_move (st w) _ _ _ _ _) as [s r] eqn:E. cbn. split; [|done].
      apply (iv_ext w); [done| |done]. intros key. cbn.
      unfold mem_move in E. revert E. repeat case_match; by intros [= <- <-].
    - split; [|done]. apply (iv_ext w); [done| |done]. intros key. unfold mem_remove. by case_match.
    - done.
    - done.
    - cbn [vwithin] in Hw. split; [|done]. intros k' v'. cbn [st set_st reads]. rewrite mem_upsert_sget.
      destruct (String.eqb_spec STORAGE_HASH hash) as [<-|]; cbn [andb]; [|apply Hi].
      destruct (String.eqb_spec k' key) as [->|]; [|apply Hi]. intros [= <-]. by apply Hw.
    - split; [done|]. split; [|done]. destruct (mem_sget (st w) hash key) eqn:E; [|done]. intros ->. by apply Hi.
    - split; [|done]. apply (iv_ext w); [cbn; lia|done|done].
    - done.
  Qed.
  Lemma cf_wp {A} (p : prog A) Q w :
    iv w → cf (reads w) p Q → wp true clock iv p (λ a w', Q (reads w') a) w.
  Proof using HC.
    revert w. induction p as [a| | |X e f IH]; intros w Hi; cbn -[mem_h]; try done.
    intros [H1 H2]. destruct (cf_effect e w Hi H1) as (E1 & E2 & E3). split; [done|]. split.
    { apply IH; [done|]. rewrite E3. by apply H2. }
    destruct (fail_ans e) as [bad|] eqn:Ef; [|done].
    assert (vsound (reads w) e bad ∧ vnext (reads w) e = reads w) as [Hs Hn].
    { destruct e; try done; injection Ef as <-; done. }
    split; apply IH; [done|..]; try done.
    - rewrite <-Hn. by apply H2.
    - rewrite E3. by apply H2.
  Qed.

  (** *** The programs *)
  Definition T {A : Type} : nat → A → Prop := λ _ _, True.
  Definition gr k0 (j0 : job M) k (r : result (job M)) : Prop :=
    k = k0 ∧ match r with Ok j => j = j0 | Err _ => True end.
  Ltac cf_eff := apply cf_bind, cf_do; [done|cbn [vsound vnext]].
  Local Hint Resolve List.Forall_nil : core.

  (** Jobs that may be written: an unreadable payload is never read back. *)
  Definition Gs k (j : job M) : Prop := G k j ∨ unreadable (data j).
  Lemma Gs_G k j : G k j → Gs k j.
  Proof using. by left. Qed.
  Lemma Gs_mono k k' j : (k <= k')%nat → Gs k j → Gs k' j.
  Proof using HC. intros Hk [H|H]; [left; by eapply (c_mono HC)|by right]. Qed.
  Local Hint Resolve Gs_G : core.
  Lemma good_enc k (j : job M) : Gs k j → goodv k (jid j) (enc_job j).
  Proof using HC.
    intros [H|H] js j' E1 E2; [|by destruct (dec_enc_data _ _ _ E1 E2 H)].
    split; [|by eapply (c_norm HC)]. unfold jid. by rewrite (dec_enc_ctx _ _ _ E1 E2).
  Qed.
  Lemma cf_save k j : Gs k j → cf k (save_and_notify j) (gr k j).
  Proof using HC.
    intros H. unfold save_and_notify, upsert_to_storage. apply cf_bind, cf_do.
    { intros _. by apply good_enc. }
    intros [u|e] _; [|done]. split; [done|]. by intros x _.
  Qed.
  Lemma cf_now_save k (f : Z → job M) :
    Gs (S k) (f (ms_of (clock k))) →
    cf k (let! t := get_now_as_ms in save_and_notify (f t)) (gr (S k) (f (ms_of (clock k)))).
  Proof using HC.
    intros H. unfold get_now_as_ms, get_now. apply cf_bind, cf_bind, cf_do; [done|]. intros x ->. cbn [bind vnext].
    by apply cf_save.
  Qed.
  Lemma cf_job_enqueue k j : Gs k j → cf k (job_enqueue j) (gr (S k) (enq j (ms_of (clock k)))).
  Proof using HC. intros H. apply (cf_now_save k (enq j)). destruct H; [left; by apply (c_enq HC)|by right]. Qed.
  Lemma cf_get k id :
    cf k (get_from_storage (M := M) id)
      (λ k' r, k' = k ∧ match r with Ok (Some j) => jid j = id ∧ G k j | _ => True end).
  Proof using.
    unfold get_from_storage. apply cf_bind, cf_do; [done|].
    intros r Hr. cbn in *. split; [done|]. destruct r as [[[js|]|]|e]; try done.
    destruct (dec_job js) eqn:E; [|done]. by eapply Hr.
  Qed.
  Lemma cf_enqueue k j : Gs k j → cf k (enqueue name j) T.
  Proof using HC.
    intros H. unfold enqueue. cf_eff. intros [u|e] _; [|done].
    eapply cf_then; [by apply cf_job_enqueue|]. by intros k' [u'|e] _ _.
  Qed.
  Lemma cf_re_enqueue k j : Gs k j → cf k (re_enqueue name j) T.
  Proof using HC.
    intros H. unfold re_enqueue. cf_eff. intros [u|e] _; [|done].
    eapply cf_then; [by apply cf_job_enqueue|]. intros k' [u'|e] _ _; [|done]. cf_eff. done.
  Qed.
  Lemma cf_run k j c : Gs k j → cf k (run_with_config name j c) T.
  Proof using HC.
    intros H. unfold run_with_config. eapply cf_then; [by apply cf_get|].
    intros k' [[ex|]|e] Hk [-> _]; [| |done].
    - apply (cf_then _ _ _ T).
      + destruct (override_data c && negb (is_running ex)); [|done].
        apply cf_do; [|done]. intros _. by apply good_enc.
      + intros k' [u|e] Hk' _; [|done]. destruct (re_run c && is_done ex); [|done].
        eapply cf_then; [apply cf_enqueue; by eapply Gs_mono|]. by intros k'' [u'|e] _ _.
    - by apply cf_enqueue.
  Qed.
  Lemma cf_finished k j : R k j → cf k (mark_job_is_finished name j) T.
  Proof using HC.
    intros H. unfold mark_job_is_finished, remove_processing_job. apply cf_bind. cf_eff.
    intros _ _. cbn [cf]. eapply cf_then; [apply (cf_now_save k (fin j)); left; by apply (c_fin HC)|].
    intros k' [j'|e] _ _; [|done]. cf_eff. done.
  Qed.
  Lemma cf_failed k j : R k j → cf k (mark_job_is_failed name j) T.
  Proof using HC.
    intros H. unfold mark_job_is_failed, push_failed_job, remove_processing_job.
    eapply cf_then; [apply (cf_now_save k (fai j)); left; by apply (c_fai HC)|].
    intros k' [j'|e] _ _; [|done]. apply cf_bind, cf_bind. cf_eff. intros _ _. cf_eff. done.
  Qed.
  Lemma cf_next_tick k j :
    R k j → cf k (next_tick prof sched j) (λ k' o, match o with Some j' => G k' j' | None => True end).
  Proof using HC.
    intros H. unfold next_tick, get_now. cf_eff. intros now ->.
    destruct (jtype (ctx j)) as [| |expr slot total cc] eqn:Et; try done.
    destruct (sched expr) as [aft|] eqn:Es; [|done]. cf_eff. intros now2 ->. cbv zeta.
    assert (G (S (S k)) j) as Hj.
    { eapply (c_mono HC); [|by apply (c_RG HC)]. lia. }
    destruct (aft (clock (S k))) as [up|] eqn:Ea.
    - destruct (i32_norm prof (total + 1)) as [n'|] eqn:En; [|done].
      destruct (max_repeat cc) as [m|] eqn:Em; [destruct (Z.ltb_spec m total); [done|]|];
        (destruct (end_at cc) as [t|] eqn:Ee; [destruct (Z.ltb_spec t (clock k)); [done|]|]);
        cbn; (eapply (c_cron HC); [exact H|exact Et|exact Es|exact Ea|exact En|..]; intros x Ex; first [rewrite Em in Ex|rewrite Ee in Ex]; by simplify_eq).
    - destruct (match max_repeat cc with Some m => m <? total | None => false end); [done|].
      by destruct (match end_at cc with Some e => e <? clock k | None => false end).
  Qed.
  Lemma c_prcG k j : G k j → is_ready j (clock k) = true → G (S (S k)) (prc j (ms_of (clock (S k)))).
  Proof using HC. intros. apply (c_RG HC). by apply (c_prc HC). Qed.
  Lemma cf_pick_batch k total ids ready :
    Forall (R k) ready →
    cf k (pick_batch name total ids ready) (λ k' r, match r with Ok js => Forall (R k') js | Err _ => True end).
  Proof using HC.
    revert k ready. induction ids as [|id ids IH]; intros k ready Hr; cbn [pick_batch]; [done|].
    assert (∀ k', (k <= k')%nat → Forall (R k') ready) as Hr'.
    { intros k' Hk. eapply list.Forall_impl; [exact Hr|]. intros x. by apply (c_monoR HC). }
    assert (∀ k', (k <= k')%nat → cf k' (let? _ := do (QMove (format_queue_name name Queued) (format_queue_name name Queued) 1 Back Front) in
      pick_batch name total ids ready) (λ k' r, match r with Ok js => Forall (R k') js | Err _ => True end)) as Hrot.
    { intros k' Hk. cf_eff. intros [l|e] _; [|done]. by apply IH, Hr'. }
    eapply cf_then; [apply cf_get|]. intros k' [[j|]|e] _ [-> Hj]; [|by apply Hrot|done].
    unfold get_now. cf_eff. intros now ->.
    destruct (is_ready j (clock k)) eqn:Erd; cbn [andb]; [|by apply Hrot; lia].
    destruct (_ && _); [|by apply Hrot; lia].
    eapply cf_then; [apply (cf_now_save (S k) (prc j)); left; apply c_prcG; [by destruct Hj|done]|].
    intros k' [j'|e] _ [-> Hj']; [|done]. subst j'. cf_eff. intros [l|e] _; [|done]. apply IH.
    apply Forall_app. split; [apply Hr'; lia|]. constructor; [|constructor].
    destruct Hj as [_ Hj].
    by apply (c_prc HC).
  Qed.
  Lemma cf_pick_loop k fuel total ready cursor :
    Forall (R k) ready →
    cf k (pick_loop prof name fuel total ready cursor)
      (λ k' r, match r with Ok js => Forall (R k') js | Err _ => True end).
  Proof using HC.
    revert k ready cursor. induction fuel as [|fuel IH]; intros k ready cursor Hr; [done|]. cbn [pick_loop].
    cf_eff. intros [ids|e] _; [|done].
    destruct (i32_norm prof _) as [cursor'|]; [|done].
    eapply cf_then; [by apply cf_pick_batch|]. intros k' [ready'|e] _ Hr'; [|done].
    destruct (_ <=? _)%nat; [done|]. destruct (_ <=? _); [done|]. by apply IH.
  Qed.
  Definition tj k (t : task M) : Prop := R k (t_orig t) ∧ R k (t_job t).
  Lemma tj_mono k k' ts : (k <= k')%nat → Forall (tj k) ts → Forall (tj k') ts.
  Proof using HC.
    intros Hk H. eapply list.Forall_impl; [exact H|]. intros t [H1 H2]. split; by eapply (c_monoR HC).
  Qed.
  Lemma R_mono k k' ts : (k <= k')%nat → Forall (R k) ts → Forall (R k') ts.
  Proof using HC.
    intros Hk H. eapply list.Forall_impl; [exact H|]. intros t. by eapply (c_monoR HC).
  Qed.
  Lemma cf_process_jobs k c ts :
    Forall (tj k) ts → cf k (process_jobs prof name c ts) (λ k', Forall (tj k')).
  Proof using HC.
    intros Ht. unfold process_jobs, pick_jobs_to_process. apply cf_bind. cf_eff.
    intros r _. cbv zeta. destruct (_ <=? _)%nat.
    { cbn. by rewrite app_nil_r. }
    unfold try_pick_specific_ready_jobs. cf_eff.
    intros [len|e] _; [|done]. eapply cf_mono; [|by apply cf_pick_loop].
    intros k' [js|e] Hk Hjs; cbn; [|by eapply tj_mono].
    apply Forall_app. split; [by eapply tj_mono|].
    apply Forall_map. eapply list.Forall_impl; [exact Hjs|]. by intros j Hj.
  Qed.
  (** What user code may do at the end of an execution of [j]. *)
  Definition tail_ok k (j : job M) (u : user_result M) : Prop :=
    ∀ r r' o, jretry (ctx j) = Some r → ur_retry u = CustomRetryAt r' o →
      R k (retried j r') ∧ ∀ t, o = Some t → G k (at_time (retried j r') t).
  Lemma cf_tail k o j u : R k o → R k j → tail_ok k j u → cf k (task_tail prof sched name o j u) T.
  Proof using HC.
    intros Ho Hj Hu. unfold task_tail. apply (cf_then _ _ _ T).
    - assert (∀ k' j' b, R k' j' → cf k' (execute_finish prof sched name j' b) T) as Hfin.
      { intros k' j' b Hj'. unfold execute_finish. apply cf_bind.
        eapply cf_mono; [|by apply cf_next_tick].
        intros k'' [nj|] Hk Hn; [by apply cf_re_enqueue; left|].
        assert (R k'' j') by by eapply (c_monoR HC). destruct b; [by apply cf_failed|by apply cf_finished]. }
      unfold execute_tail. destruct (jretry (ctx j)) as [r|] eqn:Er; [|by apply Hfin].
      unfold call_retry_at. destruct (ur_retry u) as [failed|r' o'] eqn:Eu.
      + destruct (failed && should_retry r) eqn:Es.
        * apply andb_true_iff in Es as [_ Es]. apply cf_bind. unfold get_now. cf_eff. intros now ->.
          destruct (retry_retry_at prof r (clock k)) as [[r' t]|] eqn:Ea; [|done]. cbn [cf].
          apply cf_re_enqueue. left. by eapply (c_retry HC).
        * cbn [cf bind]. apply Hfin.
          assert (retried j r = j) as E.
          { destruct j as [[]]. cbn in Er |- *. by rewrite Er. }
          fold (retried j r). by rewrite E.
      + cbn [cf bind]. destruct (Hu r r' o' Er Eu) as [H1 H2].
        destruct o' as [t|]; [apply cf_re_enqueue; left; by apply (H2 t)|by apply Hfin].
    - intros k' [u'|e] Hk _; [done|]. eapply cf_then; [apply cf_failed; by eapply (c_monoR HC)|]. done.
  Qed.
  (** Event conditions. *)
  Definition task_ok k (t : task M) (u : user_result M) : Prop :=
    (t_phase t = InUser → R k (set_data (t_job t) (ur_data u))) ∧
    (t_phase t = AfterHook → tail_ok k (t_job t) u).
  Lemma cf_task_step k t u :
    tj k t → task_ok k t u →
    cf k (task_step prof sched name t u)
      (λ k' r, match r.1 with Some t' => tj k' t' | None => True end ∧ Forall (R k') r.2).
  Proof using HC.
    intros [Ho Hj] [Hu1 Hu2]. unfold task_step. destruct (t_phase t).
    - destruct (is_cancelled (t_job t)).
      + unfold mark_job_is_canceled. apply cf_bind. cf_eff. intros x _. cbn [cf bind]. by repeat constructor.
      + unfold plugin_before. cf_eff. intros x _. cbn [cf bind]. by repeat constructor.
    - cbn [cf]. cbn. assert (R k (bump (t_job t))) by by apply (c_bump HC).
      split; [done|]. by repeat constructor.
    - unfold plugin_after. cf_eff. intros x _. cbn [cf]. split; [split; [done|]|constructor]. by apply Hu1.
    - eapply cf_then; [apply cf_tail; auto|]. intros k' r _ _. cbn [cf]. by repeat constructor.
  Qed.
  Definition ev_ok k (ts : list (task M)) (e : event M) : Prop :=
    match e with
    | EvEnqueue j _ => G k j ∨ unreadable (data j)
    | EvTask i u => ∀ t, ts !! i = Some t → task_ok k t u
    | _ => True
    end.
  Lemma cf_ev_prog k c ts e :
    Forall (tj k) ts → ev_ok k ts e →
    cf k (ev_prog prof sched name c ts e) (λ k' r, Forall (tj k') r.1.1.2 ∧ Forall (R k') r.1.2 ∧
      ∀ id j, e = EvGet id → r.2 = RJob (Some j) → jid j = id ∧ G k' j).
  Proof using HC.
    intros Ht He.
    assert (∀ k', (k <= k')%nat → Forall (tj k') ts) as Ht' by (intros; by eapply tj_mono).
    destruct e as [j ec|id|id|id|c'| |i u| | |e' n|]; cbn [ev_prog].
    - eapply cf_then; [by apply cf_run|]. intros k' r Hk _. split; [by apply Ht'|by split; [constructor|]].
    - apply (cf_then _ _ _ T).
      + unfold cancel_job. eapply cf_then; [apply cf_get|]. intros k' [[j|]|e] _ [-> Hj]; try done.
        destruct (is_queued j) eqn:Eq; [|done]. apply bool_decide_eq_true in Eq.
        eapply cf_then; [apply (cf_now_save k (can j)); left; apply (c_can HC); [by destruct Hj|done]|].
        intros k' [j'|e] _ _; [|done]. cf_eff. by intros [u|e] _.
      + intros k' r Hk _. split; [by apply Ht'|by split; [constructor|]].
    - eapply cf_then; [apply cf_get|]. intros k' [[j|]|e] Hk [-> Hj]; (split; [by apply Ht'|]); (split; [constructor|]); intros ?? [= <-]; by intros [= <-].
    - apply (cf_then _ _ _ T).
      + unfold retry_job. eapply cf_then; [apply cf_get|]. intros k' [[j|]|e] _ [-> Hj]; try done.
        destruct (is_done j); [|done]. eapply cf_then; [apply cf_re_enqueue; left; by destruct Hj|]. by intros k' [u|e] _ _.
      + intros k' r Hk _. split; [by apply Ht'|by split; [constructor|]].
    - split; [done|]. by split; [constructor|].
    - eapply cf_then; [by apply cf_process_jobs|]. intros k' ts' _ Hts. split; [done|]. by split; [constructor|].
    - destruct (ts !! i) as [t|] eqn:Et; [|split; [done|]; by split; [constructor|]].
      eapply cf_then; [apply cf_task_step; [by eapply Forall_lookup_1|by apply He]|].
      intros k' [[t'|] js] Hk [H1 H2]; cbn in *; (split; [|by split]).
      + apply Forall_insert; [by apply Ht'|done].
      + apply Forall_delete. by apply Ht'.
    - split; [constructor|]. by split; [constructor|].
    - split; [constructor|]. by split; [constructor|].
    - split; [constructor|]. by split; [constructor|].
    - eapply cf_then; [by apply cf_process_jobs|]. intros k' ts' _ Hts. split; [done|]. by split; [constructor|].
  Qed.

  (** *** Histories *)
  Context (faults : nat → fault).
  Notation sysf := (sys fworld M).
  Notation fh := (faulty_h clock faults).
  Notation fstep := (sys_step prof sched name fh).
  Definition kof (s : sysf) : nat := reads (fw (sw s)).
  Definition inv (s : sysf) : Prop :=
    iv (fw (sw s)) ∧ Forall (tj (kof s)) (tasks s) ∧ Forall (R (kof s)) (runs s).
  Definition event_ok (s : sysf) (e : event M) : Prop := ev_ok (kof s) (tasks s) (core e).

  Lemma reads_mono X (e : eff X) w : (reads w <= reads (mem_h clock X e w).1)%nat.
  Proof. destruct e; cbn; try lia. by destruct (mem_move _ _ _ _ _ _). Qed.
  Lemma freads_mono X (e : eff X) w : (reads (fw w) <= reads (fw (fh X e w).1))%nat.
  Proof.
    destruct (faulty_cases clock faults X e w) as [[-> _]|[_ [-> | ->]]]; [apply reads_mono|lia|apply reads_mono].
  Qed.
  Lemma run_reads {A} (p : prog A) w : (reads (fw w) <= reads (fw (run fh p w).1))%nat.
  Proof.
    revert w. induction p as [a| | |X e f IH]; intros w; cbn; try lia.
    pose proof (freads_mono X e w) as Hm. destruct (fh X e w) as [w' x]. cbn in Hm. specialize (IH x w'). lia.
  Qed.
  Lemma run_n_reads {A} n (p : prog A) w : (reads (fw w) <= reads (fw (run_n fh n p w)))%nat.
  Proof.
    revert p w. induction n as [|n IH]; intros p w; [cbn; lia|]. destruct p as [| | |X e f]; cbn; try lia.
    pose proof (freads_mono X e w) as Hm. destruct (fh X e w) as [w' x]. cbn in Hm. specialize (IH (f x) w'). lia.
  Qed.

  Lemma inv_commit s e :
    inv s → ev_ok (kof s) (tasks s) e →
    inv (commit prof sched name fh s e).1 ∧
    ∀ id j, e = EvGet id → (commit prof sched name fh s e).2 = RJob (Some j) →
      jid j = id ∧ G (kof (commit prof sched name fh s e).1) j.
  Proof using HC.
    intros (Hi & Ht & Hr) He. pose proof (cf_ev_prog (kof s) (cfg s) (tasks s) e Ht He) as Hw.
    apply (cf_wp _ _ (fw (sw s)) Hi) in Hw.
    apply (wp_run _ _ _ _ faults (sw s)) in Hw. unfold commit. cbn zeta in Hw.
    pose proof (run_reads (ev_prog prof sched name (cfg s) (tasks s) e) (sw s)) as Hm.
    destruct (run fh (ev_prog prof sched name (cfg s) (tasks s) e) (sw s)) as [w' o].
    cbn [fst snd] in Hw, Hm. destruct Hw as [H1 H2]. destruct o as [[[[c ts] js] r]| |].
    - destruct (H2 _ eq_refl) as (H3 & H4 & H5). cbn [fst snd] in *. split; [|exact H5].
      split; [done|]. split; [done|]. cbn [runs]. apply Forall_app. split; [|done]. by eapply R_mono.
    - cbn [fst snd]. split; [|done]. split; [done|]. split; [constructor|]. by eapply R_mono.
    - cbn [fst snd]. split; [|done]. split; [done|]. split; [constructor|]. by eapply R_mono.
  Qed.
  Lemma inv_step s e : inv s → event_ok s e → inv (fstep s e).1.
  Proof using HC.
    intros Hs He. pose proof Hs as (Hi & Ht & Hr).
    assert (∀ s' : sysf, sw s' = sw s → runs s' = runs s → tasks s' = [] → inv s') as Hdead.
    { intros s' E1 E2 E3. unfold inv, kof. rewrite E1, E2, E3. done. }
    assert (∀ e' n, ev_ok (kof s) (tasks s) e' →
      inv (Sys (run_n fh n (ev_prog prof sched name (cfg s) (tasks s) e') (sw s)) (cfg s) [] false (runs s))) as Hn.
    { intros e' n He'. split; [|split; [constructor|]].
      - cbn [sw]. eapply wp_run_n. apply cf_wp; [done|]. apply cf_ev_prog; [exact Ht|exact He'].
      - eapply R_mono; [|exact Hr]. apply run_n_reads. }
    unfold sys_step. destruct (alive s).
    - destruct e as [| | | | | | | | |e n|]; try (by apply inv_commit); try (by apply Hdead); try done.
      destruct e; try (by apply Hn); try (by apply Hdead).
    - destruct e as [| | | | | | | | |e n|]; try done; try (by apply inv_commit). destruct e; try done. by apply Hn.
  Qed.
  Lemma inv_run s es : inv s → along prof sched name clock faults event_ok s es → inv (sys_run prof sched name fh s es).
  Proof using HC.
    unfold sys_run. revert s. induction es as [|e es IH]; intros s Hs; cbn; [done|]. intros [H1 H2].
    apply IH; [|done]. by apply inv_step.
  Qed.
  Lemma inv_init : inv (sys_init (FWorld world_empty 0)).
  Proof. split; [|split; constructor]. intros key v H. done. Qed.
  Lemma along_mono (Q Q' : sysf → event M → Prop) s es :
    (∀ s e, Q s e → Q' s e) → along prof sched name clock faults Q s es → along prof sched name clock faults Q' s es.
  Proof. intros H. revert s. induction es as [|e es IH]; intros s; cbn; [done|]. intros [H1 H2]. auto. Qed.
  (** Preservation along a history, with the invariant at hand. *)
  Lemma along_inv (Q : sysf → event M → Prop) s es :
    (∀ s e, inv s → Q s e → event_ok s e) → inv s →
    along prof sched name clock faults Q s es → along prof sched name clock faults event_ok s es.
  Proof using HC.
    intros H. revert s. induction es as [|e es IH]; intros s Hs; cbn; [done|]. intros [H1 H2].
    split; [by apply H|]. apply IH; [|done]. apply inv_step; auto.
  Qed.
  Lemma inv_stored s id (j : job M) :
    inv s → stored (fw (sw s)) id = Some j → jid j = id ∧ G (kof s) j.
  Proof.
    intros (Hi & _) H. unfold stored in H. destruct (mem_sget (st (fw (sw s))) STORAGE_HASH id) as [[js|]|] eqn:E; try done.
    by eapply (Hi id).
  Qed.
End values.
