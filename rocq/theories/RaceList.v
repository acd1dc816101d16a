(** Ids in the lists under races. *)
From Verif Require Import Spec SpecRace JsonFacts BackendFacts WorldFacts MicroFacts RaceFacts.

Section lists.
  Context {M : Type} `{SM : Serde M}.
  (** The queue and the id that are followed. *)
  Context (q id : string).

  Definition keyed (key : string) (v : value) : Prop :=
    ∀ js (j : job M), v = Some js → dec_job js = Some j → jid j = key.
  Definition li (w : world) : Prop :=
    (∀ key v, mem_sget (st w) STORAGE_HASH key = Some v → keyed key v) ∧ (recorded w id → listed q w id).
  Definition lle (w w' : world) : Prop :=
    (listed q w id → listed q w' id) ∧ (recorded w id → recorded w' id).
  Lemma lle_refl w : lle w w.
  Proof. done. Qed.
  Lemma lle_trans w1 w2 w3 : lle w1 w2 → lle w2 w3 → lle w1 w3.
  Proof. intros [] []. split; auto. Qed.

  (** What a process knows: the id is listed, the id is recorded. *)
  Definition know : Type := Prop * Prop.
  Definition leq (K K' : know) : Prop := (K.1 → K'.1) ∧ (K.2 → K'.2).
  Definition lwithin (K : know) {X : Set} (e : eff X) : Prop :=
    match e with
    | QRemove _ x => x ≠ id
    | QMove f t _ _ _ => ∃ n s, f = format_queue_name n Queued ∧ t = format_queue_name n s ∧ (s = Queued ∨ s = Running)
    | SUpsert h key v => h = STORAGE_HASH → keyed key v ∧ (key = id → K.1)
    | _ => True
    end.
  Definition lsound {X : Set} (e : eff X) : X → Prop :=
    match e in eff X return X → Prop with
    | SGet h key => λ r, match r with Ok (Some v) => h = STORAGE_HASH → keyed key v | _ => True end
    | _ => λ _, True
    end.
  (** What is learnt from an answer. *)
  Definition learn {X : Set} (e : eff X) : X → know :=
    match e in eff X return X → know with
    | QPush l x => λ r, (match r with Ok _ => l = format_queue_name q Queued ∧ x = id | Err _ => False end, False)
    | SGet h key => λ r, let k := match r with Ok (Some v) => h = STORAGE_HASH ∧ key = id | _ => False end in (k, k)
    | SUpsert h key v => λ r, (False, match r with Ok _ => h = STORAGE_HASH ∧ key = id | Err _ => False end)
    | _ => λ _, (False, False)
    end.
  Definition more (K K' : know) : know := (K.1 ∨ K'.1, K.2 ∨ K'.2).
  Fixpoint lf {A} (K : know) (p : prog A) (Q : know → A → Prop) : Prop :=
    match p with
    | Ret a => Q K a
    | Panic | Diverge => True
    | Eff e f => lwithin K e ∧ ∀ x, lsound e x → lf (more K (learn e x)) (f x) Q
    end.
  Lemma leq_more K K' : leq K (more K K').
  Proof. split; cbn; auto. Qed.
  Lemma leq_trans K1 K2 K3 : leq K1 K2 → leq K2 K3 → leq K1 K3.
  Proof. intros [] []. split; auto. Qed.
  Lemma lf_mono {A} K (p : prog A) (Q Q' : know → A → Prop) :
    (∀ K' a, leq K K' → Q K' a → Q' K' a) → lf K p Q → lf K p Q'.
  Proof.
    revert K. induction p as [a| | |X e f IH]; intros K H; cbn; auto; [by apply H|]. intros [H1 H2]. split; [done|].
    intros x Hx. apply IH; [|by apply H2]. intros K' a Hk. apply H. eapply leq_trans; [apply leq_more|exact Hk].
  Qed.
  Lemma lf_bind {A B} K (p : prog A) (f : A → prog B) (Q : know → B → Prop) :
    lf K p (λ K' a, lf K' (f a) Q) → lf K (bind p f) Q.
  Proof.
    revert K. induction p as [a| | |X e g IH]; intros K; cbn; auto. intros [H1 H2]. split; [done|].
    intros x Hx. by apply IH, H2.
  Qed.
  Lemma lf_then {A B} K (p : prog A) (f : A → prog B) (P : know → A → Prop) (Q : know → B → Prop) :
    lf K p P → (∀ K' a, leq K K' → P K' a → lf K' (f a) Q) → lf K (bind p f) Q.
  Proof. intros H1 H2. apply lf_bind. eapply lf_mono; [|exact H1]. done. Qed.
  Lemma lf_do {X : Set} K (e : eff X) (Q : know → X → Prop) :
    lwithin K e → (∀ x, lsound e x → Q (more K (learn e x)) x) → lf K (do e) Q.
  Proof. done. Qed.

  (** *** The condition is enough *)
  Lemma listed_ql w w' : (∀ l, ql (st w') l = ql (st w) l) → listed q w id → listed q w' id.
  Proof. intros H. unfold listed. by rewrite !qlist_ql, !H. Qed.
  Lemma li_ext w w' : li w → lle w w' → storages (st w') = storages (st w) → li w'.
  Proof.
    intros [H1 H2] [H3 H4] E. unfold li, recorded, mem_sget. rewrite E. split; [exact H1|]. intros H. by apply H3, H2.
  Qed.
  Definition known (K : know) (w : world) : Prop := (K.1 → listed q w id) ∧ (K.2 → recorded w id).
  Lemma known_lle K w w' : lle w w' → known K w → known K w'.
  Proof. intros [] []. split; auto. Qed.
  Lemma known_more K K' w : known K w → known K' w → known (more K K') w.
  Proof. intros [] []. split; cbn; intros []; auto. Qed.
  Lemma lf_effect clock {X : Set} (e : eff X) w K :
    li w → known K w → lwithin K e →
    let r := mem_h clock X e w in
    li r.1 ∧ lle w r.1 ∧ lsound e r.2 ∧ known (learn e r.2) r.1.
  Proof.
    intros Hi HK Hw. cbv zeta.
    assert (∀ w' x, storages (st w') = storages (st w) → (listed q w id → listed q w' id) → lsound e x →
      known (learn e x) w' → li w' ∧ lle w w' ∧ lsound e x ∧ known (learn e x) w') as Hgo.
    { intros w' x E1 E2 E3 E4. assert (lle w w') as Hl by (split; [done|]; unfold recorded, mem_sget; by rewrite E1).
      split; [by eapply li_ext|done]. }
    destruct e as [l x|l l' n d d'|l x|l n d|l|h key v|h key| |m]; cbn -[mem_push mem_move mem_remove mem_upsert mem_sget learn lsound].
    - apply Hgo; [apply mem_push_storages|..|done|].
      + assert (∀ l0, id ∈ ql (st w) l0 → id ∈ ql (mem_push (st w) l x) l0) as Hin.
        { intros l0 H. rewrite mem_push_ql. unfold upd. destruct (String.eqb_spec l0 l) as [<- |]; [by right|done]. }
        unfold listed. rewrite !qlist_ql. cbn [st set_st]. intros [H|H]; [left|right]; by apply Hin.
      + split; cbn [learn fst snd]; [|done]. intros [-> ->]. left. rewrite qlist_ql. cbn [st set_st].
        rewrite mem_push_ql. unfold upd. rewrite String.eqb_refl. by left.
    - pose proof (mem_move_ql (st w) l l' n d d') as [_ Hm]. pose proof (mem_move_storages (st w) l l' n d d') as Hs.
      destruct (mem_move (st w) l l' n d d') as [s r] eqn:E. cbn [fst snd] in *.
      apply Hgo; [done| |done|by split].
      destruct Hw as (nm & s' & -> & -> & Hs'). unfold listed. rewrite !qlist_ql. cbn [st set_st]. rewrite !Hm. unfold upd.
      intros H.
      assert (∀ l0, id ∈ ql (st w) l0 → id ∈ from_end d (drop n (from_end d (ql (st w) l0))) ∨ id ∈ take n (from_end d (ql (st w) l0))) as Hsp.
      { intros l0 H0. assert (id ∈ from_end d (ql (st w) l0)) as H1 by by rewrite from_end_perm.
        rewrite <-(take_drop n (from_end d _)) in H1. apply elem_of_app in H1 as [H1|H1]; [by right|left].
        by rewrite from_end_perm. }
      assert (∀ a b, id ∈ a ∨ id ∈ b → id ∈ put_end d' a b) as Hput.
      { intros a b H0. destruct d'; cbn; rewrite elem_of_app; [|tauto]. destruct H0 as [H0|H0]; [by right|left].
        apply elem_of_list_In. rewrite <-in_rev. by apply elem_of_list_In. }
      destruct (decide (nm = q)) as [-> |Hne].
      2:{ assert (∀ s1 s2, String.eqb (format_queue_name q s1) (format_queue_name nm s2) = false) as Hf.
          { intros. apply String.eqb_neq. intros E1. by apply queue_key_inj in E1 as [-> _]. }
          by rewrite !Hf. }
      rewrite !(qname_eqb q). destruct Hs' as [-> | ->]; cbn.
      + rewrite ?(qname_eqb q). cbn. destruct H as [H|H]; [left|by right]. apply Hput. by apply Hsp.
      + rewrite ?(qname_eqb q). cbn. destruct H as [H|H].
        * destruct (Hsp _ H) as [H'|H']; [by left|right]. apply Hput. by right.
        * right. apply Hput. by left.
    - apply Hgo; [apply mem_remove_storages|..|done|by split].
      cbn in Hw. assert (∀ l0, id ∈ ql (st w) l0 → id ∈ ql (mem_remove (st w) l x) l0) as Hin.
      { intros l0 H. rewrite mem_remove_ql. unfold upd. destruct (String.eqb_spec l0 l) as [<- |]; [|done].
        apply elem_of_list_filter. split; [|done]. intros E. by apply Hw. }
      unfold listed. rewrite !qlist_ql. cbn [st set_st]. intros [H|H]; [left|right]; by apply Hin.
    - apply Hgo; first [done|by split].
    - apply Hgo; first [done|by split].
    - cbn in Hw. assert (∀ k, mem_sget (mem_upsert (st w) h key v) STORAGE_HASH k =
        if String.eqb STORAGE_HASH h && String.eqb k key then Some v else mem_sget (st w) STORAGE_HASH k) as Hup.
      { intros k. apply mem_upsert_sget. }
      assert (lle w (set_st w (mem_upsert (st w) h key v))) as Hl.
      { split.
        - apply listed_ql. intros l. unfold ql. cbn [st set_st]. by rewrite mem_upsert_queues.
        - unfold recorded. cbn [st set_st]. rewrite Hup. by case_match. }
      split; [|split; [done|split; [done|]]].
      + split.
        * intros k v'. cbn [st set_st]. rewrite Hup.
          destruct (String.eqb_spec STORAGE_HASH h) as [<-|]; cbn [andb]; [|apply Hi].
          destruct (String.eqb_spec k key) as [->|]; [|apply Hi]. intros [= <-]. by apply Hw.
        * unfold recorded. cbn [st set_st]. rewrite Hup. intros H. apply Hl.
          destruct (String.eqb_spec STORAGE_HASH h) as [<-|]; cbn [andb] in H; [|by apply Hi].
          destruct (String.eqb_spec id key) as [E|]; [|by apply Hi]. apply HK. by apply Hw.
      + split; cbn [learn fst snd]; [done|]. intros [-> ->]. unfold recorded. cbn [st set_st]. rewrite Hup.
        by rewrite !String.eqb_refl.
    - assert (lsound (SGet h key) (Ok (mem_sget (st w) h key))) as Hs.
      { cbn [lsound]. destruct (mem_sget (st w) h key) eqn:E; [|done]. intros ->. by apply Hi. }
      apply Hgo; try done. cbn [learn]. destruct (mem_sget (st w) h key) as [v|] eqn:E; [|by split].
      assert (h = STORAGE_HASH ∧ key = id → recorded w id) as Hr.
      { intros [-> ->]. unfold recorded. by rewrite E. }
      split; cbn [fst snd]; [|done]. intros H. by apply Hi, Hr.
    - apply Hgo; first [done|by split].
    - apply Hgo; first [done|by split].
  Qed.
  Lemma lf_rg clock {A} K (p : prog A) (Q : know → A → Prop) w :
    known K w → lf K p Q → rg (mem_h clock) li lle w p (λ w' a, ∃ K', known K' w' ∧ Q K' a).
  Proof.
    revert K w. induction p as [a| | |X e f IH]; intros K w HK; cbn -[mem_h]; try done; [by eauto|].
    intros [H1 H2] w1 Hl Hi. apply (known_lle _ _ _ Hl) in HK.
    destruct (lf_effect clock e w1 K Hi HK H1) as (E1 & E2 & E3 & E4). split; [done|].
    assert (known K (mem_h clock X e w1).1) as HK' by by eapply known_lle.
    split; [eapply IH; [|by apply H2]; by apply known_more|].
    destruct (fail_ans e) as [bad|] eqn:Ef; [|done].
    assert (lsound e bad ∧ ∀ w', known (learn e bad) w') as [Hs Hn].
    { destruct e; try done; injection Ef as <-; (split; [done|]; split; cbn; tauto). }
    split; (eapply IH; [|by apply H2]); by apply known_more.
  Qed.
End lists.

Section programs.
  Context {M : Type} `{SM : Serde M}.
  Context (q id : string).
  Context (prof : profile).
  Context (sched : string → option (time → option time)).
  Context (name : string).
  Notation lf := (lf (M := M) q id).
  Local Notation T := (λ _ _, True).
  Implicit Types K : know.
  Implicit Types j : job M.

  (** A job of [id] is in hand only if [id] is listed and recorded. *)
  Definition hasj K j : Prop := jid j = id → K.1 ∧ K.2.
  Lemma hasj_leq K K' j : leq K K' → hasj K j → hasj K' j.
  Proof. intros [H1 H2] H E. destruct (H E). auto. Qed.
  Lemma keyed_enc j : keyed (M := M) (jid j) (enc_job j).
  Proof. intros js j' E1 E2. unfold jid. by rewrite (dec_enc_ctx _ _ _ E1 E2). Qed.
  Lemma more_l K K' : leq K (more K K').
  Proof. split; cbn; auto. Qed.
  Ltac lf_eff := apply lf_bind, lf_do; [|intros ? ?].

  Lemma lf_save K j : (jid j = id → K.1) →
    lf K (save_and_notify j) (λ K' r, match r with Ok j' => j' = j ∧ (jid j = id → K'.2) | Err _ => True end).
  Proof.
    intros H. unfold save_and_notify, upsert_to_storage. apply lf_bind, lf_do.
    { intros _. split; [apply keyed_enc|done]. }
    intros [u|e] _; [|done]. split; [done|]. intros x _. cbn. split; [done|]. auto.
  Qed.
  Lemma lf_now_save K (f : Z → job M) j : (∀ t, jid (f t) = jid j) → (jid j = id → K.1) →
    lf K (let! t := get_now_as_ms in save_and_notify (f t))
      (λ K' r, match r with Ok j' => jid j' = jid j ∧ (jid j = id → K'.2) | Err _ => True end).
  Proof.
    intros Hf H. unfold get_now_as_ms, get_now. apply lf_bind, lf_bind, lf_do; [done|]. intros t _. cbn [bind].
    cbn [RaceList.lf]. eapply lf_mono; [|apply lf_save].
    - intros K' [j'|e] _ Hj; [|done]. destruct Hj as [-> Hj]. by rewrite <-(Hf (ms_of t)).
    - rewrite Hf. intros E. left. auto.
  Qed.
  Lemma lf_get K key :
    lf K (get_from_storage (M := M) key)
      (λ K' r, match r with Ok (Some j) => jid j = key ∧ (key = id → K'.1 ∧ K'.2) | _ => True end).
  Proof.
    unfold get_from_storage. apply lf_bind, lf_do; [done|].
    intros r Hr. cbn in *. destruct r as [[[js|]|]|e]; try done.
    destruct (dec_job js) eqn:E; [|done]. split; [by eapply Hr|]. intros ->. cbn. auto.
  Qed.
  Lemma lf_enqueue K j : (jid j = id → name = q) →
    lf K (enqueue name j) (λ K' r, r = Ok tt → hasj K' j).
  Proof.
    intros H. unfold enqueue. lf_eff; [done|]. destruct x as [u|e]; [|done]. apply lf_bind.
    eapply lf_mono; [|apply (lf_now_save _ (enq j) j)]; [|done|].
    - intros K' [j'|e] [Hl _] Hj; [|done]. destruct Hj as [_ Hj]. intros _ E. split; [|auto].
      apply Hl. right. split; [by rewrite (H E)|done].
    - intros E. right. split; [by rewrite (H E)|done].
  Qed.
  Lemma lf_run K j c : (jid j = id → name = q) →
    lf K (run_with_config name j c) (λ K' r, r = Ok tt → hasj K' j).
  Proof.
    intros H. unfold run_with_config. eapply lf_then; [apply lf_get|].
    intros K1 [[ex|]|e] Hl Hg; [| |done].
    - destruct Hg as [_ Hg]. assert (hasj K1 j) as Hj by exact Hg.
      apply (lf_then _ _ _ _ _ T).
      + destruct (override_data c && negb (is_running ex)); [|done].
        apply lf_do; [|done]. intros _. split; [apply keyed_enc|]. intros E. by destruct (Hj E).
      + intros K2 [u|e] Hl2 _; [|done]. apply (hasj_leq _ _ _ Hl2) in Hj. destruct (re_run c && is_done ex); [|intros _; exact Hj].
        eapply lf_then; [by apply lf_enqueue|]. intros K3 [u'|e] Hl3 Hk; [|done]. intros _. by eapply hasj_leq.
    - by apply lf_enqueue.
  Qed.
  Notation away j := (jid j ≠ id).
  Lemma away_has K j : away j → hasj K j.
  Proof. intros H E. done. Qed.
  Lemma lf_re_enqueue K j : away j → lf K (re_enqueue name j) T.
  Proof.
    intros H. unfold re_enqueue. lf_eff; [done|]. destruct x as [u|e]; [|done].
    eapply lf_then; [apply (lf_now_save _ (enq j) j); [done|]; by intros ?|]. intros K' [u'|e] _ _; [|done]. by lf_eff.
  Qed.
  Lemma lf_finished K j : away j → lf K (mark_job_is_finished name j) T.
  Proof.
    intros H. unfold mark_job_is_finished, remove_processing_job. apply lf_bind. lf_eff; [done|]. cbn [RaceList.lf].
    eapply lf_then; [apply (lf_now_save _ (fin j) j); [done|]; by intros ?|].
    intros K' [j'|e] _ _; [|done]. by lf_eff.
  Qed.
  Lemma lf_failed K j : away j → lf K (mark_job_is_failed name j) T.
  Proof.
    intros H. unfold mark_job_is_failed, push_failed_job, remove_processing_job.
    eapply lf_then; [apply (lf_now_save _ (fai j) j); [done|]; by intros ?|].
    intros K' [j'|e] _ Hj; [|done]. destruct Hj as [Hj _]. apply lf_bind, lf_bind. lf_eff; [cbn; by rewrite Hj|]. by lf_eff.
  Qed.
  Lemma lf_next_tick K j :
    lf K (next_tick prof sched j) (λ _ o, match o with Some j' => jid j' = jid j | None => True end).
  Proof.
    unfold next_tick, get_now. lf_eff; [done|].
    destruct (jtype (ctx j)) as [| |expr slot total cc]; try done.
    destruct (sched expr) as [aft|]; [|done]. lf_eff; [done|]. cbv zeta.
    destruct (aft _) as [up|]; [destruct (i32_norm prof (total + 1)) as [n'|]; [|done]|];
      (destruct (match max_repeat cc with Some m => m <? total | None => false end); [done|];
       by destruct (match end_at cc with Some e => e <? _ | None => false end)).
  Qed.
  Local Notation jobs := (λ K' r, match r with Ok js => Forall (hasj K') js | Err _ => True end).
  Lemma has_all K K' js : leq K K' → Forall (hasj K) js → Forall (hasj K') js.
  Proof. intros Hl H. eapply list.Forall_impl; [exact H|]. intros j. by apply hasj_leq. Qed.
  Lemma lf_pick_batch K total ids ready :
    Forall (hasj K) ready → lf K (pick_batch name total ids ready) jobs.
  Proof.
    revert K ready. induction ids as [|i ids IH]; intros K ready Hr; cbn [pick_batch]; [done|].
    assert (∀ K', leq K K' → lf K' (let? _ := do (QMove (format_queue_name name Queued) (format_queue_name name Queued) 1 Back Front) in
      pick_batch name total ids ready) jobs) as Hrot.
    { intros K' Hl. lf_eff; [exists name, Queued; auto|]. destruct x as [l|e]; [|done]. eapply IH, has_all; [|exact Hr].
      eapply leq_trans; [exact Hl|apply more_l]. }
    eapply lf_then; [apply lf_get|]. intros K1 [[j|]|e] Hl1 Hj; [|by apply Hrot|done].
    unfold get_now. lf_eff; [done|]. assert (leq K (more K1 (learn q id Now x))) as Hl2.
    { eapply leq_trans; [exact Hl1|apply more_l]. }
    destruct (is_ready j x && _ && _); [|by apply Hrot]. destruct Hj as [<- Hj].
    assert (hasj (more K1 (learn q id Now x)) j) as Hj2 by (eapply hasj_leq; [apply more_l|exact Hj]).
    eapply lf_then; [apply (lf_now_save _ (prc j) j); [done|]; intros E; by apply Hj2|].
    intros K3 [j'|e] Hl3 Hj3; [|done]. destruct Hj3 as [Ej _].
    lf_eff; [exists name, Running; auto|]. destruct x0 as [l|e]; [|done]. apply IH. apply Forall_app. split.
    - eapply has_all; [|exact Hr]. eapply leq_trans; [exact Hl2|]. eapply leq_trans; [exact Hl3|apply more_l].
    - apply List.Forall_cons; [|constructor]. unfold hasj. rewrite Ej. eapply hasj_leq; [|exact Hj2].
      eapply leq_trans; [exact Hl3|apply more_l].
  Qed.
  Lemma lf_pick_loop K fuel total ready cursor :
    Forall (hasj K) ready → lf K (pick_loop prof name fuel total ready cursor) jobs.
  Proof.
    revert K ready cursor. induction fuel as [|fuel IH]; intros K ready cursor Hr; [done|]. cbn [pick_loop].
    lf_eff; [done|]. destruct x as [ids|e]; [|done].
    destruct (i32_norm prof _) as [cursor'|]; [|done].
    eapply lf_then; [apply lf_pick_batch; eapply has_all; [apply more_l|exact Hr]|]. intros K1 [ready'|e] _ Hr'; [|done].
    destruct (_ <=? _)%nat; [done|]. destruct (_ <=? _); [done|]. by apply IH.
  Qed.
  Definition hast K (t : task M) : Prop := hasj K (t_orig t) ∧ hasj K (t_job t).
  Lemma hast_all K K' ts : leq K K' → Forall (hast K) ts → Forall (hast K') ts.
  Proof. intros Hl H. eapply list.Forall_impl; [exact H|]. intros t []. split; by eapply hasj_leq. Qed.
  Lemma lf_tail K o j u : away o → away j → lf K (task_tail prof sched name o j u) T.
  Proof.
    intros Ho Hj. unfold task_tail. apply (lf_then _ _ _ _ _ T).
    - assert (∀ K' j' b, away j' → lf K' (execute_finish prof sched name j' b) T) as Hfin.
      { intros K' j' b Hj'. unfold execute_finish. eapply lf_then; [apply lf_next_tick|].
        intros K'' [nj|] Hk Hn; [apply lf_re_enqueue; by rewrite Hn|].
        destruct b; [by apply lf_failed|by apply lf_finished]. }
      unfold execute_tail. destruct (jretry (ctx j)) as [r|] eqn:Er; [|by apply Hfin].
      apply (lf_then _ _ _ _ _ T).
      + unfold call_retry_at. destruct (ur_retry u); [|done]. destruct (failed && should_retry r); [|done].
        unfold get_now. lf_eff; [done|]. by destruct (retry_retry_at prof r x) as [[]|].
      + intros K' [r' [t|]] _ _; [by apply lf_re_enqueue|by apply Hfin].
    - intros K' [u'|e] Hk _; [done|]. by eapply lf_then; [apply lf_failed|].
  Qed.
  Lemma lf_task_step K t u :
    hast K t → (t_phase t = AfterHook → away (t_orig t) ∧ away (t_job t)) →
    lf K (task_step prof sched name t u)
      (λ K' r, match r.1 with Some t' => hast K' t' | None => True end).
  Proof.
    intros Ht Ha. pose proof Ht as [Ho Hj]. unfold task_step. destruct (t_phase t).
    - destruct (is_cancelled (t_job t)).
      + unfold mark_job_is_canceled. apply lf_bind. by lf_eff.
      + unfold plugin_before. lf_eff; [done|]. cbn. split; (eapply hasj_leq; [apply more_l|]); [exact Ho|exact Hj].
    - cbn. by split.
    - unfold plugin_after. lf_eff; [done|]. cbn. split; (eapply hasj_leq; [apply more_l|]); [exact Ho|exact Hj].
    - destruct (Ha eq_refl). by eapply lf_then; [by apply lf_tail|].
  Qed.
End programs.

Section races.
  Context {M : Type} `{SM : Serde M}.
  Context (q id : string).
  Context (prof : nat → profile).
  Context (sched : nat → string → option (time → option time)).
  Context (name : nat → string).
  Context (clock : nat → nat → time).
  Notation lf := (lf (M := M) q id).
  Implicit Types K : know.

  (** An acknowledged submission. *)
  Definition acked (e : event M) (a : response M) : Prop :=
    ∃ j c, e = EvEnqueue j c ∧ jid j = id ∧ a = RUnit (Ok tt).
  Definition lpost (e : event M) K (r : step_result) : Prop :=
    Forall (hast id K) r.1.1.2 ∧ (acked e r.2 → K.1 ∧ K.2).
  Lemma lf_do_tick K i n c ts :
    Forall (hast id K) ts → lf K (do_tick prof name n i c ts) (λ K', Forall (hast id K')).
  Proof.
    intros Ht. unfold do_tick. apply (lf_then _ _ _ _ _ (λ K' r, match r with Ok js => Forall (hasj id K') js | Err _ => True end)).
    - unfold pick_jobs. apply lf_bind, lf_do; [done|]. intros r _. cbv zeta. destruct (_ <=? _)%nat; [constructor|].
      unfold try_pick. apply lf_bind, lf_do; [done|]. intros [len|e] _; [|done]. apply lf_pick_loop. constructor.
    - intros K' [js|e] Hl Hjs; cbn; [|by eapply hast_all].
      apply Forall_app. split; [by eapply hast_all|].
      apply Forall_map. eapply list.Forall_impl; [exact Hjs|]. by intros j Hj.
  Qed.
  Lemma lf_step_of K i n c ts e :
    Forall (hast id K) ts → ¬ touches id ts e →
    match e with EvEnqueue j _ => jid j = id → name i = q | _ => True end →
    lf K (step_of prof sched name n i c ts e) (lpost e).
  Proof.
    intros Ht Hto Hq.
    assert (∀ K' e', leq K K' → (∀ j c, e' ≠ EvEnqueue j c) → ∀ a c, lpost e' K' (c, ts, [], a)) as Hdone.
    { intros K' e' Hl Hne a c'. split; [by eapply hast_all|]. intros (j & c0 & E & _). by destruct (Hne j c0). }
    destruct e as [j ec|x|x|x|c'| |n' u| | |e' n'|]; cbn [step_of ev_prog].
    - eapply lf_then; [by apply lf_run|]. intros K' r Hl Hr. split; [by eapply hast_all|].
      intros (j0 & c0 & [= <- <-] & Hid & [= Ha]). cbn in Ha. by apply Hr.
    - apply (lf_then _ _ _ _ _ (λ _ _, True)); [|intros; by apply Hdone].
      unfold cancel_job. eapply lf_then; [apply lf_get|]. intros K' [[j|]|e] _ Hj; try done.
      destruct Hj as [Ej _]. destruct (is_queued j); [|done].
      eapply lf_then; [apply (lf_now_save _ _ _ (can j) j); [done|]; intros E; destruct Hto; cbn; congruence|].
      intros K1 [j'|e] _ _; [|done]. apply lf_bind, lf_do; [cbn; intros E; by destruct Hto|]. by intros [u|e] _.
    - eapply lf_then; [apply lf_get|]. intros K' r Hl _. by apply Hdone.
    - apply (lf_then _ _ _ _ _ (λ _ _, True)); [|intros; by apply Hdone].
      unfold retry_job. eapply lf_then; [apply lf_get|]. intros K' [[j|]|e] _ Hj; try done.
      destruct Hj as [Ej _]. destruct (is_done j); [|done].
      eapply lf_then; [apply lf_re_enqueue; intros E; destruct Hto; cbn; congruence|]. by intros K1 [u|e] _ _.
    - by apply Hdone.
    - eapply lf_then; [by apply lf_do_tick|]. intros K' ts' _ Hts. split; [done|]. by intros (? & ? & ? & _).
    - destruct (ts !! n') as [t|] eqn:Et; [|by apply Hdone].
      eapply lf_then; [apply lf_task_step; [by eapply Forall_lookup_1|]|].
      { intros Hp. split; intros E; destruct Hto; exists t; auto. }
      intros K' [[t'|] js] Hl H1; cbn in *; (split; [|by intros (? & ? & ? & _)]).
      + apply Forall_insert; [by eapply hast_all|done].
      + apply Forall_delete. by eapply hast_all.
    - split; [constructor|]. by intros (? & ? & ? & _).
    - split; [constructor|]. by intros (? & ? & ? & _).
    - split; [constructor|]. by intros (? & ? & ? & _).
    - eapply lf_then; [apply lf_do_tick; constructor|]. intros K' ts' _ Hts. split; [done|]. by intros (? & ? & ? & _).
  Qed.

  Notation mem := (λ i, mem_h (clock i)).
  (** Tasks and answers of the id imply that it is listed and recorded. *)
  Definition both (w : world) : Prop := listed q w id ∧ recorded w id.
  Definition of_world (w : world) : know := (listed q w id, recorded w id).
  Lemma known_of w : known q id (of_world w) w.
  Proof. done. Qed.
  Lemma known_leq K w : known q id K w → leq K (of_world w).
  Proof. done. Qed.
  Definition linv : race M world → Prop :=
    rinv mem (li (M := M) q id) (lle q id) (λ _ w, Forall (hast id (of_world w))) (λ _ _ _, True)
      (λ _ w e a, acked e a → both w).
  Lemma linv_step r x : linv r → untouched name q id r x → linv (race_step prof sched name mem r x).
  Proof.
    intros Hr Hx.
    apply rinv_step; try done.
    - apply lle_trans.
    - intros i w w' ts [Hl1 Hl2]. by apply hast_all.
    - intros i w w' e a [Hl1 Hl2] H Ha. destruct (H Ha). split; auto.
    - destruct x as [i e n|i f|i]; try done. intros p Hp Ht. destruct Hx as [Hx1 Hx2].
      eapply rg_mono; [|apply (lf_rg q id (clock i) (of_world (r_world r)) _ (lpost e)); [done|]].
      + intros w [[[c ts] js] a] (K' & HK & H1 & H2). apply known_leq in HK. split; [by eapply hast_all|].
        split; [by apply Forall_true|]. intros Ha. destruct (H2 Ha). split; by apply HK.
      + apply lf_step_of; [done|by apply Hx1|done].
  Qed.
  Lemma linv_init n : linv (race_init world_empty n).
  Proof.
    split; [|split; [|split; constructor]].
    - split; [done|]. intros H. by destruct H.
    - intros i p Hp. apply init_idle in Hp as ->. split; [constructor|done].
  Qed.
  Lemma race_listed n xs i j c :
    ralong prof sched name clock (untouched name q id) (race_init world_empty n) xs →
    let r := race_after prof sched name clock n xs in
    jid j = id → (i, EvEnqueue j c, RUnit (Ok tt)) ∈ r_answers r →
    listed q (r_world r) id ∧ recorded (r_world r) id.
  Proof.
    intros Ha r Hid Hin. assert (linv r) as (_ & _ & _ & H).
    { apply (ralong_inv prof sched name clock linv (untouched name q id)); [apply linv_step|apply linv_init|done]. }
    rewrite list.Forall_forall in H. apply (H _ Hin). by exists j, c.
  Qed.
End races.
