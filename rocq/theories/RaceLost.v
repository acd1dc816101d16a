(** An id that waits in no list and is in no process's hands is never executed. *)
From Verif Require Import Spec SpecRace SpecLost JsonFacts BackendFacts WorldFacts MicroFacts RaceFacts RaceList RaceProps RaceSim.

Section lost.
  Context {M : Type} `{SM : Serde M}.
  Context (id : string).
  (** [b]: the record of the id is not done. *)
  Context (b : bool).

  Definition undone (v : value) : Prop :=
    b = true → ∀ js (j : job M), v = Some js → dec_job js = Some j → is_done j = false.
  Definition lost (w : world) : Prop :=
    (∀ key v, mem_sget (st w) STORAGE_HASH key = Some v → keyed (M := M) key v) ∧
    (∀ v, mem_sget (st w) STORAGE_HASH id = Some v → undone v) ∧
    (∀ n, id ∉ qlist n w Queued).
  Definition swithin {X : Set} (e : eff X) : Prop :=
    match e with
    | QPush _ x => x ≠ id
    | QMove f _ _ _ _ => ∃ n, f = format_queue_name n Queued
    | SUpsert h key v => h = STORAGE_HASH → keyed (M := M) key v ∧ (b = true → key ≠ id)
    | _ => True
    end.
  Definition ssound {X : Set} (e : eff X) : X → Prop :=
    match e in eff X return X → Prop with
    | QGet l _ _ => λ r, match r with Ok ids => (∃ n, l = format_queue_name n Queued) → id ∉ ids | Err _ => True end
    | SGet h key => λ r, match r with
        | Ok (Some v) => h = STORAGE_HASH → keyed (M := M) key v ∧ (key = id → undone v)
        | _ => True end
    | _ => λ _, True
    end.
  Fixpoint sf {A} (p : prog A) (Q : A → Prop) : Prop :=
    match p with
    | Ret a => Q a
    | Panic | Diverge => True
    | Eff e f => swithin e ∧ ∀ x, ssound e x → sf (f x) Q
    end.
  Lemma sf_mono {A} (p : prog A) (Q Q' : A → Prop) : (∀ a, Q a → Q' a) → sf p Q → sf p Q'.
  Proof.
    intros H. induction p as [a| | |X e f IH]; cbn; auto. intros [H1 H2]. split; [done|]. auto.
  Qed.
  Lemma sf_then {A B} (p : prog A) (f : A → prog B) (P : A → Prop) (Q : B → Prop) :
    sf p P → (∀ a, P a → sf (f a) Q) → sf (bind p f) Q.
  Proof.
    intros H1 H2. induction p as [a| | |X e g IH]; cbn in *; auto. destruct H1 as [A1 A2]. split; auto.
  Qed.
  Lemma sf_bind {A B} (p : prog A) (f : A → prog B) (Q : B → Prop) :
    sf p (λ a, sf (f a) Q) → sf (bind p f) Q.
  Proof. intros H. by eapply sf_then. Qed.
  Lemma sf_do {X : Set} (e : eff X) (Q : X → Prop) : swithin e → (∀ x, ssound e x → Q x) → sf (do e) Q.
  Proof. done. Qed.

  (** *** The condition is enough *)
  Lemma lost_ext w w' :
    storages (st w') = storages (st w) → (∀ n, id ∈ qlist n w' Queued → ∃ n, id ∈ qlist n w Queued) → lost w → lost w'.
  Proof.
    intros E Hq (H1 & H2 & H3). unfold lost, mem_sget. rewrite E. split; [exact H1|]. split; [exact H2|].
    intros n Hin. destruct (Hq n Hin) as [n' Hn]. by apply (H3 n').
  Qed.
  Lemma sf_effect clock {X : Set} (e : eff X) w :
    lost w → swithin e → let r := mem_h clock X e w in lost r.1 ∧ ssound e r.2.
  Proof.
    intros Hi Hw. cbv zeta.
    destruct e as [l x|l l' n d d'|l x|l n d|l|h key v|h key| |m]; cbn -[mem_push mem_move mem_remove mem_upsert mem_sget mem_get].
    - split; [|done]. apply (lost_ext w); [apply mem_push_storages|..|done]. intros n. rewrite !qlist_ql. cbn [st set_st].
      rewrite mem_push_ql. unfold upd. destruct (String.eqb_spec (format_queue_name n Queued) l); [|intros H; exists n; by rewrite qlist_ql].
      rewrite elem_of_cons. intros [->|H]; [by destruct Hw|]. exists n. rewrite qlist_ql. congruence.
    - pose proof (mem_move_ql (st w) l l' n d d') as [_ Hm]. pose proof (mem_move_storages (st w) l l' n d d') as Hs.
      destruct (mem_move (st w) l l' n d d') as [s r] eqn:E. cbn [fst snd] in *. split; [|done].
      apply (lost_ext w); [done|..|done]. destruct Hw as [nm ->]. intros n'. rewrite !qlist_ql. cbn [st set_st]. rewrite !Hm. unfold upd.
      assert (∀ k, id ∈ take k (from_end d (ql (st w) (format_queue_name nm Queued))) → ∃ n, id ∈ qlist n w Queued) as Ht.
      { intros k H. exists nm. rewrite qlist_ql. rewrite <-(from_end_perm d). rewrite <-(take_drop k (from_end d _)).
        apply elem_of_app. by left. }
      assert (∀ k, id ∈ from_end d (drop k (from_end d (ql (st w) (format_queue_name nm Queued)))) → ∃ n, id ∈ qlist n w Queued) as Hd.
      { intros k H. exists nm. rewrite qlist_ql. rewrite <-(from_end_perm d). rewrite <-(take_drop k (from_end d _)).
        apply elem_of_app. right. by rewrite from_end_perm in H. }
      assert (∀ a c, id ∈ put_end d' a c → id ∈ a ∨ id ∈ c) as Hput.
      { intros a c H0. destruct d'; cbn in H0; rewrite elem_of_app in H0; [|tauto]. destruct H0 as [H0|H0]; [right|by left].
        apply elem_of_list_In. rewrite in_rev. by apply elem_of_list_In. }
      assert (∀ z, id ∈ ql (st w) (format_queue_name z Queued) → ∃ n, id ∈ qlist n w Queued) as Hz by (intros z Hz; exists z; by rewrite qlist_ql).
      destruct (String.eqb_spec (format_queue_name n' Queued) l') as [<- |Hne]; intros HH; [apply Hput in HH as [HH|HH]|]; eauto;
        revert HH; case_match; intros HH; eauto.
    - split; [|done]. apply (lost_ext w); [apply mem_remove_storages|..|done]. intros n. rewrite !qlist_ql. cbn [st set_st].
      rewrite mem_remove_ql. unfold upd. intros H. exists n. rewrite qlist_ql. case_match; [|done].
      apply elem_of_list_filter in H as [_ H]. apply String.eqb_eq in H0. by rewrite H0.
    - split; [done|]. intros [nm ->]. rewrite mem_get_spec. intros Hin. destruct Hi as (_ & _ & H3). apply (H3 nm).
      rewrite qlist_ql. apply elem_of_take in Hin as (i & Hin & _). apply elem_of_list_lookup_2 in Hin. by rewrite from_end_perm in Hin.
    - done.
    - cbn in Hw. split; [|done]. destruct Hi as (H1 & H2 & H3). split; [|split].
      + intros k v'. cbn [st set_st]. rewrite mem_upsert_sget.
        destruct (String.eqb_spec STORAGE_HASH h) as [<-|]; cbn [andb]; [|apply H1].
        destruct (String.eqb_spec k key) as [->|]; [|apply H1]. intros [= <-]. by apply Hw.
      + intros v'. cbn [st set_st]. rewrite mem_upsert_sget.
        destruct (String.eqb_spec STORAGE_HASH h) as [<-|]; cbn [andb]; [|apply H2].
        destruct (String.eqb_spec id key) as [->|]; [|apply H2].
        destruct (Hw eq_refl) as [_ Hd]. intros _ Hb. by destruct (Hd Hb).
      + intros n. specialize (H3 n). rewrite qlist_ql in *. unfold ql in *. cbn [st set_st]. by rewrite mem_upsert_queues.
    - split; [done|]. destruct Hi as (H1 & H2 & _). destruct (mem_sget (st w) h key) as [v|] eqn:E; [|done].
      intros ->. split; [by apply H1|]. intros ->. by apply H2.
    - split; [|done]. by apply (lost_ext w); [|eauto|].
    - split; [|done]. by apply (lost_ext w); [|eauto|].
  Qed.
  Lemma sf_rg clock {A} (p : prog A) (Q : A → Prop) w :
    sf p Q → rg (mem_h clock) lost (λ _ _, True) w p (λ _ a, Q a).
  Proof.
    revert w. induction p as [a| | |X e f IH]; intros w; cbn -[mem_h]; try done.
    intros [H1 H2] w1 _ Hi. destruct (sf_effect clock e w1 Hi H1) as (E1 & E2). split; [done|].
    split; [by apply IH, H2|]. destruct (fail_ans e) as [bad|] eqn:Ef; [|done].
    assert (ssound e bad) as Hs by (destruct e; try done; injection Ef as <-; done).
    split; by apply IH, H2.
  Qed.
End lost.

Section programs.
  Context {M : Type} `{SM : Serde M}.
  Context (id : string) (b : bool).
  Context (prof : profile).
  Context (sched : string → option (time → option time)).
  Context (name : string).
  Notation sf := (sf (M := M) id b).
  Local Notation T := (λ _, True).
  Implicit Types j : job M.
  Notation away j := (jid j ≠ id).
  Ltac sf_eff := apply sf_bind, sf_do; [|intros ? ?].

  Lemma sf_now_save (f : Z → job M) j : (∀ t, jid (f t) = jid j) → (b = true → away j) →
    sf (let! t := get_now_as_ms in save_and_notify (f t)) (λ r, match r with Ok j' => jid j' = jid j | Err _ => True end).
  Proof.
    intros Hf H. unfold get_now_as_ms, get_now. apply sf_bind, sf_bind, sf_do; [done|]. intros t _. cbn [bind].
    cbn [RaceLost.sf]. unfold save_and_notify, upsert_to_storage. sf_eff.
    { intros _. split; [apply keyed_enc|rewrite Hf; exact H]. }
    destruct x as [u|e]; [|done]. sf_eff; [done|]. by rewrite <-(Hf (ms_of t)).
  Qed.
  Lemma sf_get key :
    sf (get_from_storage (M := M) key)
      (λ r, match r with Ok (Some j) => jid j = key ∧ (b = true → key = id → is_done j = false) | _ => True end).
  Proof.
    unfold get_from_storage. sf_eff; [done|]. destruct x as [[[js|]|]|e]; try done.
    destruct (dec_job js) as [j|] eqn:E; [|done]. cbn. destruct (H eq_refl) as [H1 H2].
    split; [by eapply H1|]. intros Hb Hk. by eapply (H2 Hk Hb).
  Qed.
  Lemma sf_enqueue j : away j → sf (enqueue name j) T.
  Proof.
    intros H. unfold enqueue. sf_eff; [done|]. destruct x as [u|e]; [|done].
    eapply sf_then; [by apply (sf_now_save (enq j) j)|]. by intros [u'|e].
  Qed.
  Lemma sf_run j c : away j → sf (run_with_config name j c) T.
  Proof.
    intros H. unfold run_with_config. eapply sf_then; [apply sf_get|]. intros [[ex|]|e] _; [| |done].
    - apply (sf_then _ _ _ _ T).
      + destruct (override_data c && negb (is_running ex)); [|done].
        apply sf_do; [|done]. intros _. split; [apply keyed_enc|done].
      + intros [u|e] _; [|done]. destruct (re_run c && is_done ex); [|done].
        eapply sf_then; [by apply sf_enqueue|]. by intros [u'|e].
    - by apply sf_enqueue.
  Qed.
  Lemma sf_re_enqueue j : away j → sf (re_enqueue name j) T.
  Proof.
    intros H. unfold re_enqueue. sf_eff; [done|]. destruct x as [u|e]; [|done].
    eapply sf_then; [by apply (sf_now_save (enq j) j)|]. intros [u'|e] Hj; [|done]. sf_eff; [|done]. cbn. by rewrite Hj.
  Qed.
  Lemma sf_finished j : away j → sf (mark_job_is_finished name j) T.
  Proof.
    intros H. unfold mark_job_is_finished, remove_processing_job. apply sf_bind. sf_eff; [done|]. cbn [RaceLost.sf].
    eapply sf_then; [by apply (sf_now_save (fin j) j)|]. intros [j'|e] Hj; [|done]. sf_eff; [|done]. cbn. by rewrite Hj.
  Qed.
  Lemma sf_failed j : away j → sf (mark_job_is_failed name j) T.
  Proof.
    intros H. unfold mark_job_is_failed, push_failed_job, remove_processing_job.
    eapply sf_then; [by apply (sf_now_save (fai j) j)|].
    intros [j'|e] Hj; [|done]. apply sf_bind, sf_bind. sf_eff; [done|]. sf_eff; [|done]. cbn. by rewrite Hj.
  Qed.
  Lemma sf_next_tick j :
    sf (next_tick prof sched j) (λ o, match o with Some j' => jid j' = jid j | None => True end).
  Proof.
    unfold next_tick, get_now. sf_eff; [done|].
    destruct (jtype (ctx j)) as [| |expr slot total cc]; try done.
    destruct (sched expr) as [aft|]; [|done]. sf_eff; [done|]. cbv zeta.
    destruct (aft _) as [up|]; [destruct (i32_norm prof (total + 1)) as [n'|]; [|done]|];
      (destruct (match max_repeat cc with Some m => m <? total | None => false end); [done|];
       by destruct (match end_at cc with Some e => e <? _ | None => false end)).
  Qed.
  Local Notation jobs := (λ r, match r with Ok js => Forall (λ j, away j) js | Err _ => True end).
  Lemma sf_pick_batch total ids ready :
    id ∉ ids → Forall (λ j, away j) ready → sf (pick_batch name total ids ready) jobs.
  Proof.
    revert ready. induction ids as [|i ids IH]; intros ready Hids Hr; cbn [pick_batch]; [done|].
    apply not_elem_of_cons in Hids as [Hi Hids].
    assert (sf (let? _ := do (QMove (format_queue_name name Queued) (format_queue_name name Queued) 1 Back Front) in
      pick_batch name total ids ready) jobs) as Hrot.
    { sf_eff; [by exists name|]. destruct x as [l|e]; [|done]. by apply IH. }
    eapply sf_then; [apply sf_get|]. intros [[j|]|e] Hj; [|by apply Hrot|done].
    unfold get_now. sf_eff; [done|].
    destruct (is_ready j x && _ && _); [|by apply Hrot]. destruct Hj as [<- _].
    eapply sf_then; [by apply (sf_now_save (prc j) j)|].
    intros [j'|e] Hj3; [|done]. sf_eff; [by exists name|]. destruct x0 as [l|e]; [|done]. apply IH; [done|].
    apply Forall_app. split; [done|]. apply List.Forall_cons; [by rewrite Hj3|constructor].
  Qed.
  Lemma sf_pick_loop fuel total ready cursor :
    Forall (λ j, away j) ready → sf (pick_loop prof name fuel total ready cursor) jobs.
  Proof.
    revert ready cursor. induction fuel as [|fuel IH]; intros ready cursor Hr; [done|]. cbn [pick_loop].
    sf_eff; [done|]. destruct x as [ids|e]; [|done].
    destruct (i32_norm prof _) as [cursor'|]; [|done].
    eapply sf_then; [apply sf_pick_batch; [by apply H; exists name|done]|]. intros [ready'|e] Hr'; [|done].
    destruct (_ <=? _)%nat; [done|]. destruct (_ <=? _); [done|]. by apply IH.
  Qed.
  Definition awayt (t : task M) : Prop := away (t_orig t) ∧ away (t_job t).
  Lemma sf_tail o j u : away o → away j → sf (task_tail prof sched name o j u) T.
  Proof.
    intros Ho Hj. unfold task_tail. apply (sf_then _ _ _ _ T).
    - assert (∀ j' b', away j' → sf (execute_finish prof sched name j' b') T) as Hfin.
      { intros j' b' Hj'. unfold execute_finish. eapply sf_then; [apply sf_next_tick|].
        intros [nj|] Hn; [apply sf_re_enqueue; by rewrite Hn|].
        destruct b'; [by apply sf_failed|by apply sf_finished]. }
      unfold execute_tail. destruct (jretry (ctx j)) as [r|] eqn:Er; [|by apply Hfin].
      apply (sf_then _ _ _ _ T).
      + unfold call_retry_at. destruct (ur_retry u); [|done]. destruct (failed && should_retry r); [|done].
        unfold get_now. sf_eff; [done|]. by destruct (retry_retry_at prof r x) as [[]|].
      + intros [r' [t|]] _; [by apply sf_re_enqueue|by apply Hfin].
    - intros [u'|e] _; [done|]. by eapply sf_then; [apply sf_failed|].
  Qed.
  Lemma sf_task_step t u :
    awayt t →
    sf (task_step prof sched name t u)
      (λ r, match r.1 with Some t' => awayt t' | None => True end ∧ Forall (λ j, away j) r.2).
  Proof.
    intros Ht. pose proof Ht as [Ho Hj]. unfold task_step. destruct (t_phase t).
    - destruct (is_cancelled (t_job t)).
      + unfold mark_job_is_canceled. apply sf_bind. sf_eff; [done|]. by split; [|constructor].
      + unfold plugin_before. sf_eff; [done|]. cbn. split; [done|constructor].
    - cbn. split; [done|]. by repeat constructor.
    - unfold plugin_after. sf_eff; [done|]. cbn. split; [done|constructor].
    - eapply sf_then; [by apply sf_tail|]. intros _ _. cbn. by split; [|constructor].
  Qed.
End programs.

Section races.
  Context {M : Type} `{SM : Serde M}.
  Context (id : string) (b : bool).
  Context (prof : nat → profile).
  Context (sched : nat → string → option (time → option time)).
  Context (name : nat → string).
  Context (clock : nat → nat → time).
  Notation sf := (sf (M := M) id b).
  Notation away j := (jid j ≠ id).
  Definition spost (r : step_result) : Prop :=
    Forall (awayt (M := M) id) r.1.1.2 ∧ Forall (λ j, away j) r.1.2.
  Lemma sf_do_tick i n c ts :
    Forall (awayt id) ts → sf (do_tick prof name n i c ts) (Forall (awayt id)).
  Proof.
    intros Ht. unfold do_tick. apply (sf_then _ _ _ _ (λ r, match r with Ok js => Forall (λ j, away j) js | Err _ => True end)).
    - unfold pick_jobs. apply sf_bind, sf_do; [done|]. intros r _. cbv zeta. destruct (_ <=? _)%nat; [constructor|].
      unfold try_pick. apply sf_bind, sf_do; [done|]. intros [len|e] _; [|done]. apply sf_pick_loop. constructor.
    - intros [js|e] Hjs; cbn; [|done].
      apply Forall_app. split; [done|]. apply Forall_map. eapply list.Forall_impl; [exact Hjs|]. by intros j Hj.
  Qed.
  Lemma sf_step_of i n c ts e :
    Forall (awayt id) ts → leaves_alone id b e → sf (step_of prof sched name n i c ts e) spost.
  Proof.
    intros Ht Hto.
    assert (∀ (a : response M) c, spost (c, ts, [], a)) as Hdone by (intros a c'; by split; [|constructor]).
    destruct e as [j ec|x|x|x|c'| |n' u| | |e' n'|]; cbn [step_of ev_prog].
    - eapply sf_then; [by apply sf_run|]. intros r _. by split; [|constructor].
    - apply (sf_then _ _ _ _ (λ _, True)); [|intros; by apply Hdone].
      unfold cancel_job. cbn in Hto. eapply sf_then; [apply sf_get|]. intros [[j|]|e] Hj; try done.
      destruct Hj as [<- _]. destruct (is_queued j); [|done].
      eapply sf_then; [apply (sf_now_save _ _ (can j) j); [done|]; destruct Hto as [Hb|]; [by rewrite Hb|done]|].
      intros [j'|e] _; [|done]. apply sf_bind, sf_do; [done|]. by intros [u|e] _.
    - eapply sf_then; [apply sf_get|]. intros r _. by apply Hdone.
    - apply (sf_then _ _ _ _ (λ _, True)); [|intros; by apply Hdone].
      unfold retry_job. cbn in Hto. eapply sf_then; [apply sf_get|]. intros [[j|]|e] Hj; try done.
      destruct Hj as [<- Hj]. destruct (is_done j) eqn:Ed; [|done].
      eapply sf_then; [apply sf_re_enqueue|by intros [u|e] _].
      intros E. destruct Hto as [Hb|]; [|done]. by specialize (Hj Hb E).
    - by apply Hdone.
    - eapply sf_then; [by apply sf_do_tick|]. intros ts' Hts. by split; [|constructor].
    - destruct (ts !! n') as [t|] eqn:Et; [|by apply Hdone].
      eapply sf_then; [apply sf_task_step; by eapply Forall_lookup_1|].
      intros [[t'|] js] [H1 H2]; cbn in *; (split; [|done]).
      + by apply Forall_insert.
      + by apply Forall_delete.
    - split; constructor.
    - split; constructor.
    - split; constructor.
    - eapply sf_then; [apply sf_do_tick; constructor|]. intros ts' Hts. by split; [|constructor].
  Qed.

  Notation mem := (λ i, mem_h (clock i)).
  Notation rrun := (race_run prof sched name mem).
  Definition sinv : race M world → Prop :=
    rinv mem (lost (M := M) id b) (λ _ _, True) (λ _ _, Forall (awayt id)) (λ _ _ j, away j) (λ _ _ _ _, True).
  Lemma sinv_step r x :
    sinv r → match begun x with Some e => leaves_alone id b e | None => True end → sinv (race_step prof sched name mem r x).
  Proof.
    intros Hr Hx. apply rinv_step; try done.
    destruct x as [i e n|i f|i]; try done. intros p Hp Ht.
    eapply rg_mono; [|apply sf_rg; by apply sf_step_of]. intros w [[[c ts] js] a] [H1 H2]. by split.
  Qed.
  (** The executions of a race, whatever has been executed before. *)
  Definition forget (r : race M world) : race M world := Race (r_world r) (r_procs r) [] (r_answers r).
  Lemma forget_step (r : race M world) x :
    r_runs (race_step prof sched name mem r x) = r_runs r ++ r_runs (race_step prof sched name mem (forget r) x) ∧
    forget (race_step prof sched name mem r x) = forget (race_step prof sched name mem (forget r) x).
  Proof.
    destruct x as [i e n|i f|i]; cbn; (destruct (r_procs r !! i) as [p|]; [|by cbn; rewrite app_nil_r]).
    - cbn. by rewrite app_nil_r.
    - unfold race_call. destruct (p_now p) as [[e c]|]; [|by cbn; rewrite app_nil_r].
      destruct c as [[[[c ts] js] a]| | |X e' k]; cbn; try (by rewrite ?app_nil_r).
      destruct (call_h mem i f X e' (r_world r)) as [w' x]. cbn. by rewrite app_nil_r.
    - cbn. by rewrite app_nil_r.
  Qed.
  Lemma race_lost (r : race M world) xs :
    (∀ key (j : job M), stored (r_world r) key = Some j → jid j = key) →
    (∀ i p, r_procs r !! i = Some p → p_now p = None ∧ Forall (λ t, jid (t_orig t) ≠ id ∧ jid (t_job t) ≠ id) (p_tasks p)) →
    (∀ q, id ∉ qlist q (r_world r) Queued) →
    (b = true → ∀ j : job M, stored (r_world r) id = Some j → is_done j = false) →
    Forall (λ x, match begun x with Some e => leaves_alone id b e | None => True end) xs →
    ∃ rs, r_runs (rrun r xs) = r_runs r ++ rs ∧ Forall (λ x, away x.2) rs.
  Proof.
    intros Hk Hp Hq Hb Hxs.
    assert (sinv (forget r)) as Hi.
    { split; [|split; [|split; [constructor|by apply Forall_true]]].
      - split; [|split; [|done]].
        + intros key v Hv js j -> Hj. apply Hk. unfold stored. cbn in Hv. by rewrite Hv, Hj.
        + intros v Hv Hb' js j -> Hj. apply Hb; [done|]. unfold stored. cbn in Hv. by rewrite Hv, Hj.
      - intros i p Hi. destruct (Hp i p Hi) as [Hn Ht]. split; [exact Ht|]. by rewrite Hn. }
    assert (∀ r' : race M world, sinv (forget r') → (∃ rs, r_runs r' = r_runs r ++ rs ∧ Forall (λ x : nat * job M, away x.2) rs) →
      ∃ rs, r_runs (rrun r' xs) = r_runs r ++ rs ∧ Forall (λ x, away x.2) rs) as H.
    { induction Hxs as [|x xs Hx Hxs IH]; intros r' Hi' (rs & E & Hrs); [by exists rs|].
      change (rrun r' (x :: xs)) with (rrun (race_step prof sched name mem r' x) xs).
      destruct (forget_step r' x) as [E1 E2].
      pose proof (sinv_step _ x Hi' Hx) as Hs. destruct Hs as (S1 & S2 & S3 & S4).
      apply IH.
      - rewrite E2. split; [done|]. split; [done|]. split; [constructor|]. exact S4.
      - exists (rs ++ r_runs (race_step prof sched name mem (forget r') x)). rewrite E1, E, app_assoc. split; [done|].
        apply Forall_app. split; [done|]. exact S3. }
    apply H; [done|]. exists []. by rewrite app_nil_r.
  Qed.
End races.

Section cancel.
  Context {M : Type} `{SM : Serde M} {SO : SerdeOk M}.
  Context (prof : nat → profile).
  Context (sched : nat → string → option (time → option time)).
  Context (name : nat → string).
  Context (clock : nat → nat → time).
  Notation race_after := (race_after prof sched name clock).
  Notation mem := (λ i, mem_h (clock i)).
  Notation rrun := (race_run prof sched name mem).
  Implicit Types r : race M world.
  Lemma runs_lost id b r xs :
    (∀ key (j : job M), stored (r_world r) key = Some j → jid j = key) → at_rest id r →
    (∀ q, id ∉ qlist q (r_world r) Queued) →
    (b = true → ∀ j : job M, stored (r_world r) id = Some j → is_done j = false) →
    Forall (alone id b) xs → runs_in id (rrun r xs) = runs_in id r.
  Proof.
    intros H1 H2 H3 H4 H5. destruct (race_lost id b prof sched name clock r xs H1 H2 H3 H4 H5) as (rs & E & Hrs).
    unfold runs_in. rewrite E, list.filter_app.
    assert (filter (λ x : nat * job M, jid x.2 = id) rs = []) as ->; [|by rewrite app_nil_r].
    clear -Hrs. induction Hrs as [|x rs H Hrs IH]; [done|]. by rewrite filter_cons_False.
  Qed.
  Lemma after_keyed n xs key (j : job M) : stored (r_world (race_after n xs)) key = Some j → jid j = key.
  Proof using SO.
    intros H. destruct (race_payload prof sched name clock (λ _ _, True) n xs) as (Hs & _); [|by apply Hs in H as [H _]].
    generalize (race_init (M := M) world_empty n). clear H. induction xs as [|x xs IH]; intros r0; [done|]. split; [|apply IH].
    by destruct x as [? [] ?| |].
  Qed.
  Lemma lost_after n ys id b xs :
    let r := race_after n ys in
    at_rest id r → (∀ q, id ∉ qlist q (r_world r) Queued) →
    (b = true → ∀ j : job M, stored (r_world r) id = Some j → is_done j = false) →
    Forall (alone id b) xs → runs_in id (race_after n (ys ++ xs)) = runs_in id r.
  Proof using SO.
    intros r H1 H2 H3 H4. unfold race_after. rewrite rrun_app. apply (runs_lost id b); try done. apply after_keyed.
  Qed.

  (** A step that nobody interrupts. *)
  Context (i : nat).
  Fixpoint ncalls {A} (p : prog A) (w : world) : nat :=
    match p with
    | Eff e k => S (ncalls (k (mem_h (clock i) _ e w).2) (mem_h (clock i) _ e w).1)
    | _ => 0
    end.
  Lemma ok_calls r c ts a e (p : prog step_result) p0 w :
    r_procs r !! i = Some p0 →
    rrun (at_world w (busy i r c ts a e p)) (repeat (RCall i FOk) (S (ncalls p w))) =
      at_world (run (mem_h (clock i)) p w).1 (after_run i r c (run (mem_h (clock i)) p w).2 e).
  Proof.
    intros Hp. revert w. induction p as [x| | |X e' k IH]; intros w.
    - cbn. rewrite list_lookup_insert by by eapply lookup_lt_Some.
      unfold race_call. cbn. destruct x as [[[c' ts'] js] x]. unfold at_world. cbn. by rewrite list_insert_insert.
    - cbn. rewrite list_lookup_insert by by eapply lookup_lt_Some.
      unfold race_call, put, gone, at_world. cbn. by rewrite list_insert_insert.
    - cbn. rewrite list_lookup_insert by by eapply lookup_lt_Some.
      unfold race_call, put, gone, at_world. cbn. by rewrite list_insert_insert.
    - cbn [ncalls run]. destruct (mem_h (clock i) X e' w) as [w' x] eqn:E. cbn [fst snd]. rewrite <-(IH x w').
      cbn [repeat race_run fold_left]. f_equal. f_equal. cbn [race_step r_procs at_world busy put].
      rewrite list_lookup_insert by by eapply lookup_lt_Some. unfold race_call. cbn [p_now r_world at_world].
      assert (call_h mem i FOk X e' w = (w', x)) as -> by (unfold call_h; destruct (fail_ans e'); exact E).
      unfold at_world, busy, put. cbn. by rewrite list_insert_insert.
  Qed.
  Lemma cancel_step r p id j :
    r_procs r !! i = Some p → p_alive p = true → p_now p = None →
    stored (r_world r) id = Some j → jstatus (ctx j) = Queued →
    rrun r (cancel_alone i id) =
      Race (do_cancel (name i) (clock i) (r_world r) id) (r_procs r) (r_runs r)
        (r_answers r ++ [(i, EvCancel id, RUnit (Ok tt))]).
  Proof.
    intros Hp Ha Hn Hj Hs. unfold cancel_alone. cbn [race_run fold_left race_step]. rewrite Hp.
    unfold race_begin. rewrite Hn, Ha.
    change (p_alive p) with (p_alive p) in *.
    set (q := step_of _ _ _ _ _ _ _ _).
    assert (ncalls q (r_world r) = 5%nat) as E5.
    { subst q. unfold stored in Hj. cbn -[mem_sget mem_upsert]. destruct (mem_sget (st (r_world r)) STORAGE_HASH id) as [[js|]|]; try done.
      rewrite Hj. cbn -[mem_sget mem_upsert]. assert (is_queued j = true) as -> by (unfold is_queued; by rewrite Hs). done. }
    assert (run (mem_h (clock i)) q (r_world r) =
      (do_cancel (M := M) (name i) (clock i) (r_world r) id, Done (p_cfg p, p_tasks p, [], RUnit (Ok tt)))) as Er.
    { subst q. cbn [step_of ev_prog]. rewrite run_bind, run_cancel. done. }
    pose proof (ok_calls r (p_cfg p) (p_tasks p) true (EvCancel id) q p (r_world r) Hp) as H.
    rewrite E5, Er in H. cbn [fst snd after_run map] in H.
    unfold at_world in H at 1. unfold race_run in H. unfold busy in H. cbn [r_procs r_runs r_answers put] in H. unfold put. rewrite H.
    unfold at_world. cbn. rewrite app_nil_r. f_equal. rewrite list_insert_id; [done|]. rewrite Hp. destruct p; cbn in *; congruence.
  Qed.
  Lemma cancel_lost n ys p id j xs :
    let r := race_after n ys in
    at_rest id r → r_procs r !! i = Some p → p_alive p = true →
    stored (r_world r) id = Some j → jstatus (ctx j) = Queued →
    (∀ q, q ≠ name i → id ∉ qlist q (r_world r) Queued) →
    Forall (alone id false) xs →
    let r1 := race_after n (ys ++ cancel_alone i id) in
    let r2 := race_after n (ys ++ cancel_alone i id ++ xs) in
    r_answers r1 = r_answers r ++ [(i, EvCancel id, RUnit (Ok tt))] ∧
    (∃ j', stored (r_world r1) id = Some j' ∧ jstatus (ctx j') = Canceled) ∧
    runs_in id r2 = runs_in id r.
  Proof using SO.
    intros r Hr Hp Ha Hj Hs Hq Hxs. cbv zeta. unfold race_after. rewrite app_assoc, !rrun_app.
    destruct (Hr i p Hp) as [Hn _]. pose proof (cancel_step r p id j Hp Ha Hn Hj Hs) as E.
    change (rrun (race_init world_empty n) ys) with r. rewrite E. split; [done|].
    pose proof (after_keyed n ys) as Hk. fold r in Hk. pose proof (Hk _ _ Hj) as Hid.
    assert (do_cancel (M := M) (name i) (clock i) (r_world r) id =
      w_rem (name i) (w_save (w_tick (r_world r)) (can j (now_ms (clock i) (r_world r)))) Queued id) as Ed.
    { unfold do_cancel. rewrite Hj. unfold is_queued. by rewrite Hs. }
    assert (∀ key (j : job M), stored (do_cancel (M := M) (name i) (clock i) (r_world r) id) key = Some j → jid j = key) as Hk'.
    { pose proof (after_keyed n (ys ++ cancel_alone i id)) as H. unfold race_after in H. rewrite rrun_app in H.
      change (rrun (race_init world_empty n) ys) with r in H. by rewrite E in H. }
    split.
    - cbn [r_world]. rewrite Ed, stored_rem, stored_save, bool_decide_eq_true_2 by (symmetry; exact Hid). by eexists.
    - rewrite (runs_lost id false); try done.
      intros q. cbn [r_world]. rewrite Ed. destruct (decide (q = name i)) as [->|Hne].
      + rewrite qlist_rem. rewrite bool_decide_eq_true_2 by done. intros H. by apply elem_of_list_filter in H as [].
      + specialize (Hq q Hne). revert Hq. rewrite !qlist_ql. unfold w_rem, w_save, w_put, w_send, w_tick. cbn [st set_st].
        rewrite mem_remove_ql. unfold upd. destruct (String.eqb_spec (format_queue_name q Queued) (format_queue_name (name i) Queued)) as [Eq|_].
        * by apply queue_key_inj in Eq as [? _].
        * unfold ql. by rewrite mem_upsert_queues.
  Qed.
End cancel.
