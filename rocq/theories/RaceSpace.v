(** The space taken by jobs: which keys are used, and how many entries lists may have. *)
From Verif Require Import Spec SpecRace SpecSpace JsonFacts BackendFacts WorldFacts MicroFacts RaceFacts RaceList.

(** *** Which keys are used *)
Section space.
  Context {M : Type} `{SM : Serde M}.
  Context (U : string → Prop) (L : string → Prop).
  Definition space (w : world) : Prop :=
    (∀ hash key v, mem_sget (st w) hash key = Some v → hash = STORAGE_HASH ∧ U key ∧ keyed (M := M) key v) ∧
    (∀ l x, x ∈ ql (st w) l → L l ∧ U x).
  Definition swithin {X : Set} (e : eff X) : Prop :=
    match e with
    | QPush l x => L l ∧ U x
    | QMove _ t _ _ _ => L t
    | SUpsert h key v => h = STORAGE_HASH ∧ U key ∧ keyed (M := M) key v
    | _ => True
    end.
  Definition ssound {X : Set} (e : eff X) : X → Prop :=
    match e in eff X return X → Prop with
    | QGet l _ _ => λ r, match r with Ok ids => Forall U ids | Err _ => True end
    | SGet h key => λ r, match r with Ok (Some v) => U key ∧ keyed (M := M) key v | _ => True end
    | _ => λ _, True
    end.
  Fixpoint sf {A} (p : prog A) (Q : A → Prop) : Prop :=
    match p with
    | Ret a => Q a
    | Panic | Diverge => True
    | Eff e f => swithin e ∧ ∀ x, ssound e x → sf (f x) Q
    end.
  Lemma sf_mono {A} (p : prog A) (Q Q' : A → Prop) : (∀ a, Q a → Q' a) → sf p Q → sf p Q'.
  Proof.
    intros H. induction p as [a| | |X e f IH]; cbn; auto. intros [H1 H2]. split; [done|]. auto.
  Qed.
  Lemma sf_then {A B} (p : prog A) (f : A → prog B) (P : A → Prop) (Q : B → Prop) :
    sf p P → (∀ a, P a → sf (f a) Q) → sf (bind p f) Q.
  Proof.
    intros H1 H2. induction p as [a| | |X e g IH]; cbn in *; auto. destruct H1 as [A1 A2]. split; auto.
  Qed.
  Lemma sf_bind {A B} (p : prog A) (f : A → prog B) (Q : B → Prop) :
    sf p (λ a, sf (f a) Q) → sf (bind p f) Q.
  Proof. intros H. by eapply sf_then. Qed.
  Lemma sf_do {X : Set} (e : eff X) (Q : X → Prop) : swithin e → (∀ x, ssound e x → Q x) → sf (do e) Q.
  Proof. done. Qed.

  Lemma space_ext w w' :
    storages (st w') = storages (st w) → (∀ l x, x ∈ ql (st w') l → L l ∧ U x) → space w → space w'.
  Proof. intros E Hq (H1 & H2). split; [|exact Hq]. unfold mem_sget. rewrite E. exact H1. Qed.
  Lemma sf_effect clock {X : Set} (e : eff X) w :
    space w → swithin e → let r := mem_h clock X e w in space r.1 ∧ ssound e r.2.
  Proof.
    intros Hi Hw. cbv zeta. pose proof Hi as (Hs & Hl).
    destruct e as [l x|l l' n d d'|l x|l n d|l|h key v|h key| |m]; cbn -[mem_push mem_move mem_remove mem_upsert mem_sget mem_get].
    - split; [|done]. apply (space_ext w); [apply mem_push_storages| |done]. intros q y. cbn [st set_st].
      rewrite mem_push_ql. unfold upd. destruct (String.eqb_spec q l) as [->|]; [|apply Hl].
      rewrite elem_of_cons. intros [->|H]; [done|]. by apply Hl.
    - pose proof (mem_move_ql (st w) l l' n d d') as [_ Hm]. pose proof (mem_move_storages (st w) l l' n d d') as Hst.
      destruct (mem_move (st w) l l' n d d') as [s r] eqn:E. cbn [fst snd] in *. split; [|done].
      apply (space_ext w); [done| |done]. intros q y. cbn [st set_st]. rewrite !Hm. unfold upd.
      assert (∀ k y, y ∈ take k (from_end d (ql (st w) l)) → L l ∧ U y) as Ht.
      { intros k z H. apply Hl. rewrite <-(from_end_perm d). rewrite <-(take_drop k (from_end d _)).
        apply elem_of_app. by left. }
      assert (∀ k y, y ∈ from_end d (drop k (from_end d (ql (st w) l))) → L l ∧ U y) as Hd.
      { intros k z H. apply Hl. rewrite <-(from_end_perm d). rewrite <-(take_drop k (from_end d _)).
        apply elem_of_app. right. by rewrite from_end_perm in H. }
      assert (∀ a c, y ∈ put_end d' a c → y ∈ a ∨ y ∈ c) as Hput.
      { intros a c H0. destruct d'; cbn in H0; rewrite elem_of_app in H0; [|tauto]. destruct H0 as [H0|H0]; [right|by left].
        apply elem_of_list_In. rewrite in_rev. by apply elem_of_list_In. }
      destruct (String.eqb_spec q l') as [->|Hne]; intros HH; [apply Hput in HH as [HH|HH]|].
      + split; [done|]. revert HH. case_match; intros HH; [by apply Hd in HH as [_ ?]|by apply Hl in HH as [_ ?]].
      + split; [done|]. by apply Ht in HH as [_ ?].
      + revert HH. destruct (String.eqb_spec q l) as [->|]; intros HH; [by apply Hd in HH|by apply Hl].
    - split; [|done]. apply (space_ext w); [apply mem_remove_storages| |done]. intros q y. cbn [st set_st].
      rewrite mem_remove_ql. unfold upd. destruct (String.eqb_spec q l) as [->|]; [|apply Hl].
      intros H. apply elem_of_list_filter in H as [_ H]. by apply Hl.
    - split; [done|]. rewrite mem_get_spec. apply Forall_take, list.Forall_forall. intros y Hy. rewrite from_end_perm in Hy. by eapply Hl.
    - done.
    - destruct Hw as (-> & Hu & Hk). split; [|done]. split.
      + intros h k v'. cbn [st set_st]. rewrite mem_upsert_sget.
        destruct (String.eqb_spec h STORAGE_HASH) as [->|]; cbn [andb]; [|apply Hs].
        destruct (String.eqb_spec k key) as [->|]; [|apply Hs]. by intros [= <-].
      + intros q y. unfold ql. cbn [st set_st]. rewrite mem_upsert_queues. apply Hl.
    - split; [done|]. destruct (mem_sget (st w) h key) as [v|] eqn:E; [|done]. by apply Hs in E as (_ & ? & ?).
    - split; [|done]. by apply (space_ext w).
    - split; [|done]. by apply (space_ext w).
  Qed.
  Lemma sf_rg clock {A} (p : prog A) (Q : A → Prop) w :
    sf p Q → rg (mem_h clock) space (λ _ _, True) w p (λ _ a, Q a).
  Proof.
    revert w. induction p as [a| | |X e f IH]; intros w; cbn -[mem_h]; try done.
    intros [H1 H2] w1 _ Hi. destruct (sf_effect clock e w1 Hi H1) as (E1 & E2). split; [done|].
    split; [by apply IH, H2|]. destruct (fail_ans e) as [bad|] eqn:Ef; [|done].
    assert (ssound e bad) as Hs by (destruct e; try done; injection Ef as <-; done).
    split; by apply IH, H2.
  Qed.
End space.

Section programs.
  Context {M : Type} `{SM : Serde M}.
  Context (U : string → Prop) (L : string → Prop).
  Context (prof : profile).
  Context (sched : string → option (time → option time)).
  Context (name : string).
  Context (HL : ∀ s, L (format_queue_name name s)).
  Notation sf := (sf (M := M) U L).
  Local Notation T := (λ _, True).
  Implicit Types j : job M.
  Notation own j := (U (jid j)).
  Ltac sf_eff := apply sf_bind, sf_do; [|intros ? ?].

  Lemma sf_now_save (f : Z → job M) j : (∀ t, jid (f t) = jid j) → own j →
    sf (let! t := get_now_as_ms in save_and_notify (f t)) (λ r, match r with Ok j' => jid j' = jid j | Err _ => True end).
  Proof.
    intros Hf H. unfold get_now_as_ms, get_now. apply sf_bind, sf_bind, sf_do; [done|]. intros t _. cbn [bind].
    cbn [RaceSpace.sf]. unfold save_and_notify, upsert_to_storage. sf_eff.
    { split; [done|]. split; [by rewrite Hf|apply keyed_enc]. }
    destruct x as [u|e]; [|done]. sf_eff; [done|]. by rewrite <-(Hf (ms_of t)).
  Qed.
  Lemma sf_get key :
    sf (get_from_storage (M := M) key)
      (λ r, match r with Ok (Some j) => jid j = key ∧ U key | _ => True end).
  Proof.
    unfold get_from_storage. sf_eff; [done|]. destruct x as [[[js|]|]|e]; try done.
    destruct (dec_job js) as [j|] eqn:E; [|done]. cbn. destruct H as [H1 H2].
    split; [by eapply H2|done].
  Qed.
  Lemma sf_enqueue j : own j → sf (enqueue name j) T.
  Proof.
    intros H. unfold enqueue. sf_eff; [done|]. destruct x as [u|e]; [|done].
    eapply sf_then; [by apply (sf_now_save (enq j) j)|]. by intros [u'|e].
  Qed.
  Lemma sf_run j c : own j → sf (run_with_config name j c) T.
  Proof.
    intros H. unfold run_with_config. eapply sf_then; [apply sf_get|]. intros [[ex|]|e] _; [| |done].
    - apply (sf_then _ _ _ _ T).
      + destruct (override_data c && negb (is_running ex)); [|done].
        apply sf_do; [|done]. split; [done|]. split; [done|apply keyed_enc].
      + intros [u|e] _; [|done]. destruct (re_run c && is_done ex); [|done].
        eapply sf_then; [by apply sf_enqueue|]. by intros [u'|e].
    - by apply sf_enqueue.
  Qed.
  Lemma sf_re_enqueue j : own j → sf (re_enqueue name j) T.
  Proof.
    intros H. unfold re_enqueue. sf_eff; [done|]. destruct x as [u|e]; [|done].
    eapply sf_then; [by apply (sf_now_save (enq j) j)|]. intros [u'|e] Hj; [|done]. sf_eff; [|done]. cbn. by rewrite Hj.
  Qed.
  Lemma sf_finished j : own j → sf (mark_job_is_finished name j) T.
  Proof.
    intros H. unfold mark_job_is_finished, remove_processing_job. apply sf_bind. sf_eff; [done|]. cbn [RaceSpace.sf].
    eapply sf_then; [by apply (sf_now_save (fin j) j)|]. intros [j'|e] Hj; [|done]. sf_eff; [|done]. cbn. by rewrite Hj.
  Qed.
  Lemma sf_failed j : own j → sf (mark_job_is_failed name j) T.
  Proof.
    intros H. unfold mark_job_is_failed, push_failed_job, remove_processing_job.
    eapply sf_then; [by apply (sf_now_save (fai j) j)|].
    intros [j'|e] Hj; [|done]. apply sf_bind, sf_bind. sf_eff; [done|]. sf_eff; [|done]. cbn. by rewrite Hj.
  Qed.
  Lemma sf_next_tick j :
    sf (next_tick prof sched j) (λ o, match o with Some j' => jid j' = jid j | None => True end).
  Proof.
    unfold next_tick, get_now. sf_eff; [done|].
    destruct (jtype (ctx j)) as [| |expr slot total cc]; try done.
    destruct (sched expr) as [aft|]; [|done]. sf_eff; [done|]. cbv zeta.
    destruct (aft _) as [up|]; [destruct (i32_norm prof (total + 1)) as [n'|]; [|done]|];
      (destruct (match max_repeat cc with Some m => m <? total | None => false end); [done|];
       by destruct (match end_at cc with Some e => e <? _ | None => false end)).
  Qed.
  Local Notation jobs := (λ r, match r with Ok js => Forall (λ j, own j) js | Err _ => True end).
  Lemma sf_pick_batch total ids ready :
    Forall (λ j, own j) ready → sf (pick_batch name total ids ready) jobs.
  Proof.
    revert ready. induction ids as [|i ids IH]; intros ready Hr; cbn [pick_batch]; [done|].
    assert (sf (let? _ := do (QMove (format_queue_name name Queued) (format_queue_name name Queued) 1 Back Front) in
      pick_batch name total ids ready) jobs) as Hrot.
    { sf_eff; [apply HL|]. destruct x as [l|e]; [|done]. by apply IH. }
    eapply sf_then; [apply sf_get|]. intros [[j|]|e] Hj; [|by apply Hrot|done].
    unfold get_now. sf_eff; [done|].
    destruct (is_ready j x && _ && _); [|by apply Hrot]. destruct Hj as [<- Hj].
    eapply sf_then; [by apply (sf_now_save (prc j) j)|].
    intros [j'|e] Hj3; [|done]. sf_eff; [apply HL|]. destruct x0 as [l|e]; [|done]. apply IH.
    apply Forall_app. split; [done|]. apply List.Forall_cons; [by rewrite Hj3|constructor].
  Qed.
  Lemma sf_pick_loop fuel total ready cursor :
    Forall (λ j, own j) ready → sf (pick_loop prof name fuel total ready cursor) jobs.
  Proof.
    revert ready cursor. induction fuel as [|fuel IH]; intros ready cursor Hr; [done|]. cbn [pick_loop].
    sf_eff; [done|]. destruct x as [ids|e]; [|done].
    destruct (i32_norm prof _) as [cursor'|]; [|done].
    eapply sf_then; [by apply sf_pick_batch|]. intros [ready'|e] Hr'; [|done].
    destruct (_ <=? _)%nat; [done|]. destruct (_ <=? _); [done|]. by apply IH.
  Qed.
  Definition ownt (t : task M) : Prop := own (t_orig t) ∧ own (t_job t).
  Lemma sf_tail o j u : own o → own j → sf (task_tail prof sched name o j u) T.
  Proof.
    intros Ho Hj. unfold task_tail. apply (sf_then _ _ _ _ T).
    - assert (∀ j' b', own j' → sf (execute_finish prof sched name j' b') T) as Hfin.
      { intros j' b' Hj'. unfold execute_finish. eapply sf_then; [apply sf_next_tick|].
        intros [nj|] Hn; [apply sf_re_enqueue; by rewrite Hn|].
        destruct b'; [by apply sf_failed|by apply sf_finished]. }
      unfold execute_tail. destruct (jretry (ctx j)) as [r|] eqn:Er; [|by apply Hfin].
      apply (sf_then _ _ _ _ T).
      + unfold call_retry_at. destruct (ur_retry u); [|done]. destruct (failed && should_retry r); [|done].
        unfold get_now. sf_eff; [done|]. by destruct (retry_retry_at prof r x) as [[]|].
      + intros [r' [t|]] _; [by apply sf_re_enqueue|by apply Hfin].
    - intros [u'|e] _; [done|]. by eapply sf_then; [apply sf_failed|].
  Qed.
  Lemma sf_task_step t u :
    ownt t →
    sf (task_step prof sched name t u) (λ r, match r.1 with Some t' => ownt t' | None => True end).
  Proof.
    intros Ht. pose proof Ht as [Ho Hj]. unfold task_step. destruct (t_phase t).
    - destruct (is_cancelled (t_job t)).
      + unfold mark_job_is_canceled. apply sf_bind. sf_eff; [|done]. by split.
      + unfold plugin_before. by sf_eff.
    - done.
    - unfold plugin_after. by sf_eff.
    - eapply sf_then; [by apply sf_tail|]. done.
  Qed.
End programs.

Section races.
  Context {M : Type} `{SM : Serde M}.
  Context (prof : nat → profile).
  Context (sched : nat → string → option (time → option time)).
  Context (name : nat → string).
  Context (clock : nat → nat → time).
  Context (U : string → Prop).
  Definition lname (l : string) : Prop := ∃ i s, l = format_queue_name (name i) s.
  Notation sf := (sf (M := M) U lname).
  Definition spost (r : step_result) : Prop := Forall (ownt (M := M) U) r.1.1.2.
  Definition submits (e : event M) : Prop := match e with EvEnqueue j _ => U (jid j) | _ => True end.
  Lemma lname_ok i s : lname (format_queue_name (name i) s).
  Proof. by exists i, s. Qed.
  Hint Resolve lname_ok : core.
  Lemma sf_do_tick i n c ts :
    Forall (ownt U) ts → sf (do_tick prof name n i c ts) (Forall (ownt U)).
  Proof.
    intros Ht. unfold do_tick. apply (sf_then _ _ _ _ (λ r, match r with Ok js => Forall (λ j, U (jid j)) js | Err _ => True end)).
    - unfold pick_jobs. apply sf_bind, sf_do; [done|]. intros r _. cbv zeta. destruct (_ <=? _)%nat; [constructor|].
      unfold try_pick. apply sf_bind, sf_do; [done|]. intros [len|e] _; [|done]. apply sf_pick_loop; [auto|constructor].
    - intros [js|e] Hjs; cbn; [|done].
      apply Forall_app. split; [done|]. apply Forall_map. eapply list.Forall_impl; [exact Hjs|]. by intros j Hj.
  Qed.
  Lemma sf_step_of i n c ts e :
    Forall (ownt U) ts → submits e → sf (step_of prof sched name n i c ts e) spost.
  Proof.
    intros Ht Hto.
    destruct e as [j ec|x|x|x|c'| |n' u| | |e' n'|]; cbn [step_of ev_prog].
    - eapply sf_then; [by apply sf_run; [auto|]|]. intros r _. exact Ht.
    - apply (sf_then _ _ _ _ (λ _, True)); [|intros; exact Ht].
      unfold cancel_job. eapply sf_then; [apply sf_get|]. intros [[j|]|e] Hj; try done.
      destruct Hj as [<- Hj]. destruct (is_queued j); [|done].
      eapply sf_then; [by apply (sf_now_save _ _ (can j) j)|].
      intros [j'|e] _; [|done]. apply sf_bind, sf_do; [done|]. by intros [u|e] _.
    - eapply sf_then; [apply sf_get|]. intros r _. exact Ht.
    - apply (sf_then _ _ _ _ (λ _, True)); [|intros; exact Ht].
      unfold retry_job. eapply sf_then; [apply sf_get|]. intros [[j|]|e] Hj; try done.
      destruct Hj as [<- Hj]. destruct (is_done j) eqn:Ed; [|done].
      eapply sf_then; [by apply sf_re_enqueue; [auto|]|by intros [u|e] _].
    - exact Ht.
    - eapply sf_then; [by apply sf_do_tick|]. intros ts' Hts. exact Hts.
    - destruct (ts !! n') as [t|] eqn:Et; [|exact Ht].
      eapply sf_then; [apply sf_task_step; [auto|by eapply Forall_lookup_1]|].
      intros [[t'|] js] H1; cbn in *.
      + by apply Forall_insert.
      + by apply Forall_delete.
    - constructor.
    - constructor.
    - constructor.
    - eapply sf_then; [apply sf_do_tick; constructor|]. intros ts' Hts. exact Hts.
  Qed.

  Notation mem := (λ i, mem_h (clock i)).
  Definition sinv : race M world → Prop :=
    rinv mem (space (M := M) U lname) (λ _ _, True) (λ _ _, Forall (ownt U)) (λ _ _ _, True) (λ _ _ _ _, True).
  Lemma sinv_step r x :
    sinv r → match begun x with Some e => submits e | None => True end → sinv (race_step prof sched name mem r x).
  Proof.
    intros Hr Hx. apply rinv_step; try done.
    destruct x as [i e n|i f|i]; try done. intros p Hp Ht.
    eapply rg_mono; [|apply sf_rg; by apply sf_step_of]. intros w [[[c ts] js] a] H1. split; [exact H1|]. split; [|done].
    by apply Forall_true.
  Qed.
  Lemma sinv_run r xs :
    sinv r → Forall (λ x, match begun x with Some e => submits e | None => True end) xs →
    sinv (race_run prof sched name mem r xs).
  Proof.
    intros Hr Hxs. revert r Hr. induction Hxs as [|x xs Hx _ IH]; intros r Hr; [done|]. by apply IH, sinv_step.
  Qed.
End races.

(** *** How many entries there are *)
Definition ent (m : gmap string (list string)) : nat := map_fold (λ _ l n, (length l + n)%nat) 0%nat m.
Lemma ent_insert_new m k l : m !! k = None → ent (<[k := l]> m) = (length l + ent m)%nat.
Proof. intros H. unfold ent. rewrite map_fold_insert_L; [done| |done]. intros. lia. Qed.
Lemma ent_delete m k : ent m = (length (default [] (m !! k)) + ent (delete k m))%nat.
Proof.
  destruct (m !! k) as [l|] eqn:E; cbn; [|by rewrite delete_notin].
  rewrite <-(insert_delete m k l E) at 1. rewrite ent_insert_new; [done|]. apply lookup_delete.
Qed.
Lemma ent_insert m k l : (ent (<[k := l]> m) + length (default [] (m !! k)) = length l + ent m)%nat.
Proof.
  rewrite (ent_delete (<[k := l]> m) k), (ent_delete m k), lookup_insert, delete_insert_delete. cbn. lia.
Qed.
Lemma ent_ext m : ∀ m', (∀ k, default [] (m !! k) = default [] (m' !! k)) → ent m = ent m'.
Proof.
  induction m as [|k l m Hk IH] using map_ind; intros m' H.
  - assert (∀ m0, (∀ k : string, default [] (m0 !! k) = []) → ent m0 = 0%nat) as H0.
    { intros m0. induction m0 as [|k l m0 Hk IH] using map_ind; intros Hm; [done|]. rewrite ent_insert_new by done.
      rewrite IH. { specialize (Hm k). rewrite lookup_insert in Hm. cbn in Hm. by subst l. }
      intros k'. specialize (Hm k'). destruct (decide (k' = k)) as [->|]; [by rewrite Hk|].
      by rewrite lookup_insert_ne in Hm. }
    symmetry. rewrite H0; [done|]. intros k. rewrite <-H, lookup_empty. done.
  - rewrite ent_insert_new by done. rewrite (ent_delete m' k). rewrite <-H, lookup_insert. cbn. f_equal. apply IH.
    intros k'. destruct (decide (k' = k)) as [->|Hne]; [by rewrite Hk, lookup_delete|].
    rewrite lookup_delete_ne by done. rewrite <-H. by rewrite lookup_insert_ne.
Qed.
Lemma put_end_length d a c : length (put_end d a c) = (length a + length c)%nat.
Proof. destruct d; cbn; rewrite app_length, ?rev_length; lia. Qed.
Lemma from_end_length d l : length (from_end d l) = length l.
Proof. by rewrite (Permutation_length (from_end_perm d l)). Qed.
Definition is_push {X : Set} (e : eff X) : nat := match e with QPush _ _ => 1 | _ => 0 end.
Lemma entries_effect clock {X : Set} (e : eff X) w :
  (entries (mem_h clock X e w).1 <= entries w + is_push e)%nat.
Proof.
  unfold entries. fold (ent (queues (st w))). fold (ent (queues (st (mem_h clock X e w).1))).
  destruct e as [l x|l l' n d d'|l x|l n d|l|h key v|h key| |m]; cbn -[mem_push mem_move mem_remove mem_upsert mem_sget mem_get]; try lia.
  - rewrite (ent_ext _ (<[l := x :: ql (st w) l]> (queues (st w)))).
    + pose proof (ent_insert (queues (st w)) l (x :: ql (st w) l)) as H. cbn in H. unfold ql in *. lia.
    + intros k. pose proof (mem_push_ql (st w) l x k) as H. unfold ql, upd in *. rewrite H. clear H.
      destruct (String.eqb_spec k l) as [E|E]; [subst k; by rewrite lookup_insert|by rewrite lookup_insert_ne].
  - pose proof (mem_move_ql (st w) l l' n d d') as [_ Hm].
    destruct (mem_move (st w) l l' n d d') as [s r]. cbn [fst st set_st] in *.
    set (a := from_end d (drop n (from_end d (ql (st w) l)))) in *.
    set (t := take n (from_end d (ql (st w) l))) in *.
    assert (length a + length t = length (ql (st w) l))%nat as Hlen.
    { subst a t. rewrite from_end_length, drop_length, take_length, from_end_length. lia. }
    set (m1 := <[l := a]> (queues (st w))).
    rewrite (ent_ext _ (<[l' := put_end d' (default [] (m1 !! l')) t]> m1)).
    + pose proof (ent_insert m1 l' (put_end d' (default [] (m1 !! l')) t)) as H1.
      pose proof (ent_insert (queues (st w)) l a) as H2. fold m1 in H2. rewrite put_end_length in H1.
      unfold ql in Hlen. lia.
    + intros k. specialize (Hm k). unfold ql in Hm at 1. rewrite Hm. unfold upd. subst m1.
      destruct (String.eqb_spec k l') as [->|Hne].
      * rewrite lookup_insert. cbn. f_equal. destruct (String.eqb_spec l' l) as [->|]; [by rewrite lookup_insert|by rewrite lookup_insert_ne].
      * rewrite lookup_insert_ne by done. destruct (String.eqb_spec k l) as [->|]; [by rewrite lookup_insert|by rewrite lookup_insert_ne].
  - rewrite (ent_ext _ (<[l := filter (λ y, y ≠ x) (ql (st w) l)]> (queues (st w)))).
    + pose proof (ent_insert (queues (st w)) l (filter (λ y, y ≠ x) (ql (st w) l))) as H.
      pose proof (filter_length (λ y, y ≠ x) (ql (st w) l)). unfold ql in *. lia.
    + intros k. pose proof (mem_remove_ql (st w) l x k) as H. unfold ql, upd in *. rewrite H. clear H.
      destruct (String.eqb_spec k l) as [E|E]; [subst k; by rewrite lookup_insert|by rewrite lookup_insert_ne].
  - rewrite mem_upsert_queues. lia.
Qed.

(** At most [k] pushes, whatever is answered. *)
Fixpoint atmost {A} (k : nat) (p : prog A) (Q : A → Prop) : Prop :=
  match p with
  | Ret a => Q a
  | Eff e f => (is_push e <= k)%nat ∧ ∀ x, atmost (k - is_push e) (f x) Q
  | _ => True
  end.
Lemma atmost_mono {A} k k' (p : prog A) (Q Q' : A → Prop) :
  (k <= k')%nat → (∀ a, Q a → Q' a) → atmost k p Q → atmost k' p Q'.
Proof.
  intros Hk H. revert k k' Hk. induction p as [a| | |X e f IH]; cbn; auto. intros k k' Hk [H1 H2]. split; [lia|].
  intros x. eapply IH; [|apply H2]. lia.
Qed.
(** Pushes are done only if the rest has none. *)
Lemma atmost_then {A B} k (p : prog A) (f : A → prog B) (P : A → Prop) (Q : B → Prop) :
  atmost 0 p P → (∀ a, P a → atmost k (f a) Q) → atmost k (bind p f) Q.
Proof.
  intros H1 H2. induction p as [a| | |X e g IH]; cbn in *; auto. destruct H1 as [A1 A2]. split; [lia|].
  intros x. replace (k - is_push e)%nat with k by lia. apply IH. by replace 0%nat with (0 - is_push e)%nat by lia.
Qed.
Lemma atmost_last {A B} k (p : prog A) (f : A → prog B) (P : A → Prop) (Q : B → Prop) :
  atmost k p P → (∀ a, P a → atmost 0 (f a) Q) → atmost k (bind p f) Q.
Proof.
  intros H1 H2. revert k H1. induction p as [a| | |X e g IH]; cbn in *; auto; intros k H1.
  - eapply (atmost_mono 0); [lia|done|]. auto.
  - destruct H1 as [A1 A2]. split; auto.
Qed.
Section pushes.
  Context {M : Type} `{SM : Serde M}.
  Context (prof : profile).
  Context (sched : string → option (time → option time)).
  Context (name : string).
  Implicit Types j : job M.
  Local Notation T := (λ _, True).
  (** An error tells that nothing was pushed. *)
  Ltac none := cbn; split; [lia|]; intros ?.
  Lemma am_now_save k (f : Z → job M) : atmost k (let! t := get_now_as_ms in save_and_notify (f t)) T.
  Proof. none. none. destruct x0 as [u|e]; [|done]. cbn. split; [lia|done]. Qed.
  Lemma am_get k key : atmost k (get_from_storage (M := M) key) T.
  Proof. by none. Qed.
  Lemma am_enqueue j : atmost 1 (enqueue name j) T.
  Proof.
    none. destruct x as [u|e]; [|done]. cbn. split; [lia|]. intros t. cbn. split; [lia|]. intros [u'|e]; [|done].
    cbn. split; [lia|]. done.
  Qed.
  Lemma am_run j c : atmost 1 (run_with_config name j c) T.
  Proof.
    unfold run_with_config. eapply atmost_then; [apply am_get|]. intros [[ex|]|e] _; [| |done].
    - apply (atmost_then _ _ _ T).
      + destruct (override_data c && negb (is_running ex)); [|done]. by none.
      + intros [u|e] _; [|done]. destruct (re_run c && is_done ex); [|done].
        eapply atmost_last; [apply am_enqueue|]. by intros [u'|e].
    - apply am_enqueue.
  Qed.
  (** Programs whose errors come before their only push, and programs that go on after an error. *)
  Fixpoint late {A} (p : prog (result A)) : Prop :=
    match p with
    | Ret _ => True
    | Eff e f => ∀ x, if (is_push e =? 0)%nat then late (f x) else atmost 0 (f x) (λ r, ∃ a, r = Ok a)
    | _ => True
    end.
  Lemma late_bind {A B} (p : prog (result A)) (f : result A → prog B) :
    late p → (∀ e, atmost 1 (f (Err e)) T) → (∀ a, atmost 0 (f (Ok a)) T) → atmost 1 (bind p f) T.
  Proof.
    intros H H1 H2. induction p as [[a|e]| | |X e g IH]; cbn in *; auto.
    - eapply (atmost_mono 0); [lia|done|auto].
    - specialize (H : ∀ x, _). destruct (Nat.eqb_spec (is_push e) 0) as [E|E]; rewrite ?E.
      + split; [lia|]. intros x. rewrite Nat.sub_0_r. auto.
      + assert (is_push e = 1%nat) as Ep by (destruct e; cbn in *; lia). rewrite Ep. split; [lia|]. intros x.
        eapply atmost_then; [apply H|]. intros r [a ->]. auto.
  Qed.
  Lemma late_then {A B} (p : prog A) (f : A → prog (result B)) :
    atmost 0 p T → (∀ a, late (f a)) → late (bind p f).
  Proof.
    intros H1 H2. induction p as [a| | |X e g IH]; cbn in *; auto. destruct H1 as [A1 A2]. intros x.
    assert (is_push e = 0%nat) as -> by lia. cbn. apply IH. by specialize (A2 x).
  Qed.
  Lemma late_re_enqueue j : late (re_enqueue name j).
  Proof.
    cbn. intros [u|e]; [|done]. cbn. intros t. cbn. intros [u'|e]; [|done]. cbn. intros _ r. cbn. eauto.
  Qed.
  Lemma late_finished j : late (mark_job_is_finished name j).
  Proof. cbn. intros _ t. cbn. intros [u'|e]; [|done]. cbn. intros _ r. cbn. eauto. Qed.
  Lemma late_failed j : late (mark_job_is_failed name j).
  Proof. cbn. intros t. cbn. intros [u'|e]; [|done]. cbn. intros _ _ r. cbn. eauto. Qed.
  Lemma am_next_tick j : atmost 0 (next_tick prof sched j) T.
  Proof.
    none. destruct (jtype (ctx j)) as [| |expr slot total cc]; try done.
    destruct (sched expr) as [aft|]; [|done]. none. cbv zeta.
    destruct (aft _) as [up|]; [destruct (i32_norm prof (total + 1)) as [n'|]; [|done]|];
      (destruct (match max_repeat cc with Some m => m <? total | None => false end); [done|];
       by destruct (match end_at cc with Some e => e <? _ | None => false end)).
  Qed.
  Lemma late_tail j u : late (execute_tail prof sched name j u).
  Proof.
    assert (∀ j' b', late (execute_finish prof sched name j' b')) as Hfin.
    { intros j' b'. unfold execute_finish. apply late_then; [apply am_next_tick|].
      intros [nj|]; [apply late_re_enqueue|]. destruct b'; [apply late_failed|apply late_finished]. }
    unfold execute_tail. destruct (jretry (ctx j)) as [r|] eqn:Er; [|by apply Hfin].
    apply late_then.
    - unfold call_retry_at. destruct (ur_retry u); [|done]. destruct (failed && should_retry r); [|done].
      none. by destruct (retry_retry_at prof r x) as [[]|].
    - intros [r' [t|]]; [apply late_re_enqueue|apply Hfin].
  Qed.
  Lemma am_task_step t u : atmost 1 (task_step prof sched name t u) T.
  Proof.
    unfold task_step. destruct (t_phase t).
    - destruct (is_cancelled (t_job t)); by none.
    - done.
    - by none.
    - eapply atmost_last; [|intros; exact Logic.I]. apply late_bind; [apply late_tail|intros|done].
      apply late_bind; [apply late_failed|done..].
  Qed.
  Lemma am_pick_batch total ids ready : atmost 0 (pick_batch (M := M) name total ids ready) T.
  Proof.
    revert ready. induction ids as [|i ids IH]; intros ready; cbn [pick_batch]; [done|].
    assert (atmost 0 (let? _ := do (QMove (format_queue_name name Queued) (format_queue_name name Queued) 1 Back Front) in
      pick_batch (M := M) name total ids ready) T) as Hrot.
    { cbn. split; [lia|]. intros [l|e]; [apply IH|done]. }
    eapply atmost_then; [apply am_get|]. intros [[j|]|e] _; [|by apply Hrot|done].
    cbn [bind do get_now]. cbn [atmost]. split; [cbn; lia|]. intros now. cbn [is_push Nat.sub].
    destruct (is_ready j now && _ && _); [|by apply Hrot].
    eapply atmost_then; [apply (am_now_save 0 (prc j))|].
    intros [j'|e] _; [|done]. cbn. split; [lia|]. intros [l|e]; [apply IH|done].
  Qed.
  Lemma am_pick_loop fuel total ready cursor : atmost 0 (pick_loop (M := M) prof name fuel total ready cursor) T.
  Proof.
    revert ready cursor. induction fuel as [|fuel IH]; intros ready cursor; [done|]. cbn [pick_loop bind do].
    cbn [atmost]. split; [cbn; lia|]. intros [ids|e]; [|done]. cbn [is_push Nat.sub bind].
    destruct (i32_norm prof _) as [cursor'|]; [|done].
    eapply atmost_then; [apply am_pick_batch|]. intros [ready'|e] _; [|done].
    destruct (_ <=? _)%nat; [done|]. destruct (_ <=? _); [done|]. apply IH.
  Qed.
End pushes.

Section growth.
  Context {M : Type} `{SM : Serde M}.
  Context (prof : nat → profile).
  Context (sched : nat → string → option (time → option time)).
  Context (name : nat → string).
  Context (clock : nat → nat → time).
  Notation mem := (λ i, mem_h (clock i)).
  Notation rstep := (race_step prof sched name mem).
  Local Notation T := (λ _, True).
  Definition cost (e : event M) : nat := if adds e then 1%nat else 0%nat.
  Lemma am_do_tick i n c (ts : list (task M)) : atmost 0 (do_tick prof name n i c ts) T.
  Proof.
    unfold do_tick. apply (atmost_then _ _ _ T); [|done].
    unfold pick_jobs. cbn. split; [lia|]. intros r. destruct (_ <=? _)%nat; [done|].
    unfold try_pick. cbn. split; [lia|]. intros [len|e]; [|done]. apply am_pick_loop.
  Qed.
  Lemma am_step_of i n c ts (e : event M) : atmost (cost e) (step_of prof sched name n i c ts e) T.
  Proof.
    destruct e as [j ec|x|x|x|c'| |n' u| | |e' n'|]; cbn [step_of ev_prog cost adds]; unfold cost; cbn [adds].
    - by eapply atmost_last; [apply am_run|].
    - apply (atmost_then _ _ _ T); [|done]. unfold cancel_job. eapply atmost_then; [apply am_get|]. intros [[j|]|e] _; try done.
      destruct (is_queued j); [|done]. eapply atmost_then; [apply (am_now_save 0 (can j))|]. intros [j'|e] _; [|done].
      cbn. split; [lia|]. by intros [u|e].
    - by eapply atmost_then; [apply am_get|].
    - apply (atmost_last _ _ _ T); [|done]. unfold retry_job. eapply atmost_then; [apply am_get|]. intros [[j|]|e] _; try done.
      destruct (is_done j); [|done]. apply late_bind; [apply late_re_enqueue|done..].
    - done.
    - by eapply atmost_then; [apply am_do_tick|].
    - destruct (ts !! n') as [t|]; [|done]. eapply atmost_last; [apply am_task_step|]. by intros [[t'|] js] _.
    - done.
    - done.
    - done.
    - by eapply atmost_then; [apply am_do_tick|].
  Qed.
  (** What is left of a step has at most [b] pushes. *)
  Definition left_over (p : proc M) (b : nat) : Prop :=
    match p_now p with Some (_, q) => atmost b q T | None => True end.
  Definition ginv (n : nat) (r : race M world) : Prop :=
    ∃ bs, Forall2 left_over (r_procs r) bs ∧ (entries (r_world r) + sum_list bs <= n)%nat.
  Lemma sum_insert (l : list nat) i b c : l !! i = Some b → (sum_list (<[i := c]> l) + b = sum_list l + c)%nat.
  Proof.
    revert i. induction l as [|x l IH]; intros [|i] H; try done; cbn in *.
    - injection H as ->. lia.
    - specialize (IH _ H). change ((sum_list (x :: <[i:=c]> l) + b = x + sum_list l + c)%nat). cbn. lia.
  Qed.
  Lemma ginv_step n (r : race M world) x :
    ginv n r → ginv (n + match begun x with Some e => cost e | None => 0 end) (rstep r x).
  Proof.
    intros (bs & Hb & Hn).
    assert (∀ i p p', r_procs r !! i = Some p → p_now p' = None → ginv n (put r i p')) as Hput.
    { intros i p p' Hp Hp'. destruct (Forall2_lookup_l _ _ _ _ _ Hb Hp) as (b & Eb & _).
      exists bs. split; [|done]. cbn. rewrite <-(list_insert_id bs i b) by done. apply Forall2_insert; [done|].
      unfold left_over. by rewrite Hp'. }
    assert (ginv n r) as Hr by by exists bs.
    assert (∀ k (r : race M world), ginv n r → ginv (n + k) r) as Hmore.
    { intros k r' (bs' & Hb' & Hn'). exists bs'. split; [done|]. lia. }
    destruct x as [i e m|i f|i]; cbn [race_step begun]; (destruct (r_procs r !! i) as [p|] eqn:Ep; [|by apply Hmore]).
    - destruct (Forall2_lookup_l _ _ _ _ _ Hb Ep) as (b & Eb & Hl).
      unfold race_begin. destruct (p_now p) as [[e0 q0]|] eqn:En.
      { apply (Hmore (cost e)) in Hr. unfold put. rewrite list_insert_id by done. destruct r. exact Hr. }
      assert (∀ a ts, ginv (n + cost e) (put r i (Proc (p_cfg p) ts a (Some (e, step_of prof sched name m i (p_cfg p) ts e))))) as Hgo.
      { intros a ts. exists (<[i := cost e]> bs). split.
        - cbn. apply Forall2_insert; [done|]. apply am_step_of.
        - pose proof (sum_insert bs i b (cost e) Eb). cbn. lia. }
      assert (ginv n (put r i p)) as Hsame by (unfold put; rewrite list_insert_id by done; destruct r; exact Hr).
      destruct (p_alive p), e; first [exact (Hgo _ _)|apply Hmore; exact Hsame|apply Hmore; by eapply Hput].
    - rewrite Nat.add_0_r. unfold race_call. destruct (p_now p) as [[e q]|] eqn:En; [|done].
      destruct (Forall2_lookup_l _ _ _ _ _ Hb Ep) as (b & Eb & Hl). unfold left_over in Hl. rewrite En in Hl.
      destruct q as [[[[c ts] js] a]| | |X e' g]; [|by eapply Hput..|].
      + exists bs. split; [|done]. cbn. rewrite <-(list_insert_id bs i b) by done. by apply Forall2_insert.
      + cbn in Hl. destruct Hl as [H1 H2].
        assert (entries (call_h mem i f X e' (r_world r)).1 <= entries (r_world r) + is_push e')%nat as He.
        { pose proof (entries_effect (clock i) e' (r_world r)). unfold call_h. destruct (fail_ans e'), f; cbn [fst]; lia. }
        destruct (call_h mem i f X e' (r_world r)) as [w' y]. cbn [fst] in He.
        exists (<[i := (b - is_push e')%nat]> bs). split.
        * cbn. apply Forall2_insert; [done|]. apply H2.
        * pose proof (sum_insert bs i b (b - is_push e') Eb). cbn. lia.
    - rewrite Nat.add_0_r. by eapply Hput.
  Qed.
  Lemma race_entries n (xs : list (race_event M)) :
    (entries (r_world (race_after prof sched name clock n xs)) <= added xs)%nat.
  Proof.
    assert (∀ k (r : race M world), ginv k r → ginv (k + added xs) (race_run prof sched name mem r xs)) as H.
    { induction xs as [|x xs IH]; intros k r Hr; [by rewrite Nat.add_0_r|].
      pose proof (ginv_step k r x Hr) as Hs. apply IH in Hs.
      assert (k + added (x :: xs) = k + match begun x with Some e => cost e | None => 0 end + added xs)%nat as ->; [|exact Hs].
      unfold added. cbn [List.filter]. unfold cost. destruct (begun x) as [e|]; [destruct (adds e)|]; cbn; lia. }
    destruct (H 0%nat (race_init world_empty n)) as (bs & _ & Hb).
    - exists (repeat 0%nat n). split.
      + cbn. induction n; cbn; constructor; done.
      + cbn. induction n; cbn; [done|]. done.
    - unfold race_after. lia.
  Qed.

  (** *** Records stay *)
  Lemma recorded_effect i f {X : Set} (e : eff X) w hash key :
    mem_sget (st w) hash key ≠ None → mem_sget (st (call_h mem i f X e w).1) hash key ≠ None.
  Proof.
    assert (mem_sget (st w) hash key ≠ None → mem_sget (st (mem_h (clock i) X e w).1) hash key ≠ None) as H.
    { destruct e as [l x|l l' n d d'|l x|l n d|l|h k v|h k| |m]; cbn -[mem_push mem_move mem_remove mem_upsert mem_sget mem_get]; try done.
      - unfold mem_sget. by rewrite mem_push_storages.
      - pose proof (mem_move_storages (st w) l l' n d d') as Hs. destruct (mem_move (st w) l l' n d d') as [s r]. cbn in *.
        unfold mem_sget. by rewrite Hs.
      - unfold mem_sget. by rewrite mem_remove_storages.
      - rewrite mem_upsert_sget. by destruct (_ && _). }
    unfold call_h. by destruct (fail_ans e), f.
  Qed.
  Lemma recorded_run (r : race M world) xs hash key :
    mem_sget (st (r_world r)) hash key ≠ None → mem_sget (st (r_world (race_run prof sched name mem r xs))) hash key ≠ None.
  Proof.
    revert r. induction xs as [|x xs IH]; intros r H; [done|]. apply IH.
    destruct x as [i e m|i f|i]; cbn [race_step]; (destruct (r_procs r !! i) as [p|]; [|done]); try done.
    unfold race_call. destruct (p_now p) as [[e q]|]; [|done]. destruct q as [[[[c ts] js] a]| | |X e' g]; try done.
    pose proof (recorded_effect i f e' (r_world r) hash key H). by destruct (call_h mem i f X e' (r_world r)).
  Qed.

  Lemma race_space n (xs : list (race_event M)) :
    let w := r_world (race_after prof sched name clock n xs) in
    (∀ hash key v, mem_sget (st w) hash key = Some v → hash = STORAGE_HASH ∧ submitted_id xs key) ∧
    (∀ l x, x ∈ default [] (queues (st w) !! l) →
      (∃ i s, l = format_queue_name (name i) s) ∧ submitted_id xs x).
  Proof.
    intros w. assert (sinv name clock (submitted_id xs) (race_run prof sched name mem (race_init world_empty n) xs)) as H.
    { apply sinv_run.
      - split; [|split; [|split; constructor]].
        + split; [done|]. intros l x H. by apply elem_of_nil in H.
        + intros i p Hp. apply init_idle in Hp as ->. split; [constructor|done].
      - apply list.Forall_forall. intros x Hx. destruct (begun x) as [[j c| | | | | | | | | | ]|] eqn:E; try done.
        exists j. split; [|done]. by exists x, c. }
    destruct H as [[H1 H2] _]. split; [|exact H2]. intros hash key v Hv. by destruct (H1 _ _ _ Hv) as (? & ? & _).
  Qed.
  Lemma recorded_after n xs ys hash key :
    mem_sget (st (r_world (race_after prof sched name clock n xs))) hash key ≠ None →
    mem_sget (st (r_world (race_after prof sched name clock n (xs ++ ys)))) hash key ≠ None.
  Proof. unfold race_after, race_run. rewrite fold_left_app. apply recorded_run. Qed.
End growth.
