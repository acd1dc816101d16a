(** Who waits for plugins, and for how long. *)
From Verif Require Import Spec SpecPlugin BackendFacts WorldFacts PickFacts PluginFacts.

Lemma lately_snoc tr o : lately (tr ++ [o]) = match o with OCrash => [] | _ => lately tr ++ [o] end.
Proof. unfold lately. by rewrite fold_left_app. Qed.
Lemma lately_app tr os : OCrash ∉ os → lately (tr ++ os) = lately tr ++ os.
Proof.
  induction os as [|o os IH] using rev_ind; intros H; [by rewrite !app_nil_r|].
  rewrite !app_assoc, lately_snoc, IH by (intros ?; apply H; rewrite elem_of_app; auto).
  destruct o; try done. exfalso. apply H. rewrite elem_of_app, elem_of_list_singleton. auto.
Qed.
Lemma end_about n b tr : OEnd n b ∈ tr ↔ OEnd n b ∈ about n tr.
Proof. unfold about. rewrite elem_of_list_filter. cbn. naive_solver. Qed.
Lemma send_about n tm tr : OSend n tm ∈ tr ↔ OSend n tm ∈ about n tr.
Proof. unfold about. rewrite elem_of_list_filter. cbn. naive_solver. Qed.
(** A message on its way has not ended. *)
Lemma nos_open c tr n : cinv c tr → n ∈ nos c → ¬ ended n tr.
Proof.
  intros H Hn [b Hb%end_about]. unfold nos in Hn. rewrite elem_of_app in Hn. destruct Hn as [Hn|Hn].
  - apply elem_of_list_fmap in Hn as (f & -> & Hf). destruct (c_futok _ _ H f Hf) as (m & ps & called & _ & E & _).
    rewrite E in Hb. rewrite !elem_of_cons in Hb. destruct Hb as [|[|Hb]]; [done|done|].
    unfold calls_to in Hb. by apply elem_of_list_fmap in Hb as (? & ? & _).
  - apply elem_of_list_fmap in Hn as ([k x] & -> & Hx). cbn in Hb. rewrite (c_boxok _ _ H _ _ Hx) in Hb.
    destruct x; [by apply elem_of_nil in Hb|]. by apply elem_of_list_singleton in Hb.
Qed.
Lemma on_way_ends c tr n m : cinv c tr → on_way c tr n m → n ∉ nos c ↔ ended n tr.
Proof.
  intros H (_ & _ & Ho). split.
  - intros Hn. destruct Ho as [|(pre & b & E)]; [done|]. exists b. apply end_about. rewrite E, elem_of_app. right. by left.
  - intros He Hn. by eapply nos_open.
Qed.
Lemma unanswered_nos c n : unanswered c n = true ↔ n ∈ nos c.
Proof.
  unfold unanswered, nos. rewrite orb_true_iff, elem_of_app, !existsb_exists. split.
  - intros [(x & Hx & E)|(x & Hx & E)]; apply elem_of_list_In in Hx; apply Nat.eqb_eq in E; subst.
    + right. apply elem_of_list_fmap. eauto.
    + left. apply elem_of_list_fmap. eauto.
  - intros [Hn|Hn]; apply elem_of_list_fmap in Hn as (x & -> & Hx); apply elem_of_list_In in Hx.
    + right. exists x. split; [done|apply Nat.eqb_refl].
    + left. exists x. split; [done|apply Nat.eqb_refl].
Qed.

(** *** All messages are on their way or have ended *)
Definition all_way (c : center) (tr : list obs) : Prop := ∀ n tm, OSend n tm ∈ lately tr → on_way c tr n tm.
Lemma all_way_move c tr c' os :
  all_way c tr → cmove c tr c' os → OCrash ∉ os → (∀ n tm, OSend n tm ∈ os → on_way c' (tr ++ os) n tm) →
  all_way c' (tr ++ os).
Proof.
  intros H Hm Hc Ho n tm. rewrite lately_app, elem_of_app by done. intros [Hn|Hn]; [|auto]. by apply (cm_keep _ _ _ _ Hm), H.
Qed.
Lemma all_way_post1 c tr ty m :
  cinv c tr → all_way c tr → all_way (post1 c (MMsg ty m)) (tr ++ [OSend (c_next c) (ty, m)]).
Proof.
  intros Hi H. apply (all_way_move c); [done|by apply cmove_post1|by intros ?%elem_of_list_singleton|].
  intros n tm [= -> ->]%elem_of_list_singleton. split; [cbn; lia|]. split.
  - exists []. rewrite about_snoc_eq by done. by rewrite (c_fresh _ _ Hi).
  - left. rewrite nos_post1, elem_of_app, elem_of_list_singleton. auto.
Qed.
Lemma post_cons ty m ms c :
  post ty (m :: ms) c =
    ((post ty ms (post1 c (MMsg ty m))).1, OSend (c_next c) (ty, m) :: (post ty ms (post1 c (MMsg ty m))).2).
Proof. cbn. fold (post1 c (MMsg ty m)). by destruct (post ty ms _). Qed.
Lemma all_way_post ty ms c tr :
  cinv c tr → all_way c tr → all_way (post ty ms c).1 (tr ++ (post ty ms c).2).
Proof.
  revert c tr. induction ms as [|m ms IH]; intros c tr Hi H; [by rewrite app_nil_r|].
  rewrite post_cons. cbn [fst snd]. pose proof (all_way_post1 c tr ty m Hi H) as H1.
  specialize (IH _ _ (cm_inv _ _ _ _ (cmove_post1 c tr ty m Hi)) H1). by rewrite <-app_assoc in IH.
Qed.
Lemma handle_obs c o : o ∈ (handle c).2 → (∃ p, o = OReg p) ∨ ∃ n ty ps, o = OHandle n ty ps.
Proof.
  unfold handle. destruct (c_box c) as [|[n [p|ty m]] box]; cbn; [by intros ?%elem_of_nil|..]; intros ->%elem_of_list_singleton; eauto.
Qed.
Lemma poll_obs c i ok o : o ∈ (poll c i ok).2 → (∃ n p x, o = OCall n p x) ∨ ∃ n b, o = OEnd n b.
Proof.
  unfold poll. destruct (c_futs c !! i) as [f|]; [|by intros ?%elem_of_nil].
  destruct (forallb f_started _); [|by intros ?%elem_of_nil].
  destruct (next_plugin _ _) as [[p rest]|]; [destruct ok|]; cbn; rewrite ?elem_of_cons; intros Ho; repeat destruct Ho as [->|Ho];
    try (by apply elem_of_nil in Ho); eauto.
Qed.
Lemma all_way_handle c tr : cinv c tr → all_way c tr → all_way (handle c).1 (tr ++ (handle c).2).
Proof.
  intros Hi H. apply (all_way_move c); [done|by apply cmove_handle|..].
  - by intros [[]|(? & ? & ? & ?)]%handle_obs.
  - by intros ?? [[]|(? & ? & ? & ?)]%handle_obs.
Qed.
Lemma all_way_poll c tr i ok : cinv c tr → all_way c tr → all_way (poll c i ok).1 (tr ++ (poll c i ok).2).
Proof.
  intros Hi H. apply (all_way_move c); [done|by apply cmove_poll|..].
  - by intros [(? & ? & ? & ?)|(? & ? & ?)]%poll_obs.
  - by intros ?? [(? & ? & ? & ?)|(? & ? & ?)]%poll_obs.
Qed.

(** *** What is left to do *)
Definition left_todo (c : center) : nat :=
  (sum_list_with (λ f, length (f_todo f) + 2) (c_futs c)
   + length (c_box c) * (length (c_plugins c) + length (c_box c) + 3))%nat.
Lemma left_handle c : (left_todo (handle c).1 + length (handle c).2 <= left_todo c)%nat.
Proof.
  unfold handle, left_todo. destruct (c_box c) as [|[n [p|ty m]] box] eqn:E; cbn; rewrite ?E; cbn.
  - lia.
  - rewrite app_length. cbn. nia.
  - rewrite sum_list_with_app. cbn. nia.
Qed.
Lemma next_plugin_less ty ps p rest : next_plugin ty ps = Some (p, rest) → (length rest < length ps)%nat.
Proof. induction ps as [|q ps IH]; cbn; [done|]. destruct (should_run q ty); [intros [= -> ->]; lia|]. intros ?%IH. lia. Qed.
Lemma left_poll c i ok : (left_todo (poll c i ok).1 + length (poll c i ok).2 <= left_todo c)%nat.
Proof.
  unfold poll. destruct (c_futs c !! i) as [f|] eqn:Ef; [|cbn; lia]. destruct (forallb f_started _); [|cbn; lia].
  apply elem_of_list_split_length in Ef as (l1 & l2 & El & ->). unfold left_todo. rewrite El.
  destruct (next_plugin _ _) as [[p rest]|] eqn:En; [apply next_plugin_less in En; destruct ok|]; cbn [fst snd c_futs c_box c_plugins];
    rewrite ?list_insert_app_r_0, ?delete_middle, ?sum_list_with_app; cbn; try lia.
  assert (<[length l1 := Fut (f_no f) (f_type f) (f_call f) rest true]> (l1 ++ f :: l2) =
    l1 ++ Fut (f_no f) (f_type f) (f_call f) rest true :: l2) as ->.
  { rewrite <-(Nat.add_0_r (length l1)), insert_app_r. done. }
  rewrite sum_list_with_app. cbn. lia.
Qed.

Section psys_wait.
  Context {M : Type} `{SM : Serde M}.
  Context (prof : profile).
  Context (sched : string → option (time → option time)).
  Context (name : string).
  Context (clock : nat → time).
  Context (ty : nat).
  Notation h := (mem_h clock).
  Notation step := (sys_step prof sched name h).
  Notation psys := (psys M).
  Notation pstep := (psys_step prof sched name clock ty).
  Notation pafter := (pafter prof sched name clock ty).
  Notation pinv := (pinv ty).

  Lemma pafter_app es es' : pafter (es ++ es') = fold_left pstep es' (pafter es).
  Proof. unfold pafter, psys_run. apply fold_left_app. Qed.
  Lemma pafter_snoc es e : pafter (es ++ [e]) = pstep (pafter es) e.
  Proof. by rewrite pafter_app. Qed.
  Lemma all_way_step s e : pinv s → all_way (p_center s) (p_trace s) →
    all_way (p_center (pstep s e)) (p_trace (pstep s e)).
  Proof.
    intros Hp H. pose proof (pi_c _ _ Hp) as Hi. destruct e as [e|p|ty' m| |i ok].
    - cbn [psys_step]. destruct (blocked s e); [done|].
      assert (∀ ms (q : sys world M) ws, OCrash ∉ starts s e → (∀ n tm, OSend n tm ∉ starts s e) →
        (∀ o, o ∈ starts s e → ∃ n id, o = OStart n id) →
        all_way (p_center (let (c', os) := post ty ms (p_center s) in PSys q c' ws (p_trace s ++ starts s e ++ os)))
          (p_trace (let (c', os) := post ty ms (p_center s) in PSys q c' ws (p_trace s ++ starts s e ++ os)))) as Hpost.
      { intros ms q ws H1 H2 H3.
        assert (∀ k, about k (starts s e) = []) as Hab.
        { intros k. clear -H3. induction (starts s e) as [|o l IH]; [done|]. destruct (H3 o) as (k' & id & ->); [by left|].
          rewrite about_cons_ne by (by intros []). apply IH. intros o Ho. apply H3. by right. }
        assert (cinv (p_center s) (p_trace s ++ starts s e)) as Hi'.
        { apply cinv_silent; [exact Hab| |apply Hi]. intros o Ho. by destruct (H3 o Ho) as (n & id & ->). }
        assert (all_way (p_center s) (p_trace s ++ starts s e)) as H'.
        { intros n tm. rewrite lately_app, elem_of_app by done. intros [Hn|Hn]; [|by apply H2 in Hn].
          apply (on_way_keep (p_center s) (p_trace s)); auto. }
        pose proof (all_way_post ty ms _ _ Hi' H') as Hq. destruct (post ty ms (p_center s)) as [c' os]. cbn in *.
        by rewrite <-app_assoc in Hq. }
      assert (∀ o, o ∈ starts s e → ∃ n id, o = OStart n id) as H3.
      { intros o Ho. unfold starts in Ho. repeat (case_match; try by apply elem_of_nil in Ho).
        apply elem_of_list_singleton in Ho as ->. eauto. }
      assert (OCrash ∉ starts s e) as H1 by (by intros (? & ? & ?)%H3).
      assert (∀ n tm, OSend n tm ∉ starts s e) as H2 by (by intros ?? (? & ? & ?)%H3).
      cbv zeta. destruct e; try (apply Hpost; done); cbn [p_center p_trace]; intros k tm; rewrite lately_snoc; by intros ?%elem_of_nil.
    - cbn. rewrite <-(app_nil_r (p_trace s)). apply (all_way_move (p_center s)); [done|by apply cmove_register|by intros ?%elem_of_nil|].
      by intros ?? ?%elem_of_nil.
    - cbn. by apply (all_way_post1 (p_center s) (p_trace s) ty' m).
    - cbn [psys_step]. pose proof (all_way_handle _ _ Hi H) as Hh. by destruct (handle (p_center s)).
    - cbn [psys_step]. pose proof (all_way_poll _ _ i ok Hi H) as Hh. by destruct (poll (p_center s) i ok).
  Qed.
  Lemma way_after es : all_way (p_center (pafter es)) (p_trace (pafter es)).
  Proof.
    induction es as [|e es IH] using rev_ind.
    - intros n tm Hn. by apply elem_of_nil in Hn.
    - rewrite pafter_snoc. apply all_way_step; [apply pinv_after|done].
  Qed.

  (** *** Who waits *)
  Lemma free_goes (s : psys) e : blocked s e = false → p_sys (pstep s (PEv e)) = (step (p_sys s) e).1.
  Proof. intros H. cbn [psys_step]. rewrite H. cbv zeta. destruct e; try done; by destruct (post _ _ _). Qed.
  Lemma blocked_waits (s : psys) e : blocked s e = true →
    ∃ i u t n, e = EvTask i u ∧ tasks (p_sys s) !! i = Some t ∧ waiting t ∧ p_waits s !! i = Some n ∧ n ∈ nos (p_center s).
  Proof.
    destruct e as [| | | | | |i u| | | |]; try done. cbn [blocked].
    destruct (tasks (p_sys s) !! i) as [t|] eqn:E1; [|done]. destruct (p_waits s !! i) as [n|] eqn:E2; [|done].
    unfold waiting. destruct (t_phase t) eqn:E3; try done; intros ?%unanswered_nos; exists i, u, t, n; auto.
  Qed.
  Lemma who_blocked es :
    let s := pafter es in
    ∃ no : nat → nat, ∀ i t, tasks (p_sys s) !! i = Some t → waiting t →
      OSend (no i) (ty, RunHook (jid (t_job t)) true) ∈ p_trace s ∧ no i ∉ waited (p_trace s) ∧
      (∀ k t', tasks (p_sys s) !! k = Some t' → waiting t' → no k = no i → k = i) ∧
      ∀ u, (¬ ended (no i) (p_trace s) → blocked s (EvTask i u) = true) ∧
           (ended (no i) (p_trace s) → blocked s (EvTask i u) = false).
  Proof.
    cbv zeta. pose proof (pinv_after prof sched name clock ty es) as H. set (s := pafter es) in *.
    exists (λ i, default 0%nat (p_waits s !! i)).
    assert (∀ i t, tasks (p_sys s) !! i = Some t → waiting t →
      ∃ n, p_waits s !! i = Some n ∧ hooked s i n (jid (t_job t))) as Hn.
    { intros i t Ht Hw. assert (is_Some (p_waits s !! i)) as [n Hn].
      { apply lookup_lt_is_Some. rewrite (pi_len _ _ H). by eapply lookup_lt_Some. }
      exists n. split; [done|]. exists t. done. }
    intros i t Ht Hw. destruct (Hn i t Ht Hw) as (n & En & Hh). rewrite En. change (default 0%nat (Some n)) with n.
    destruct (pi_wait _ _ H _ _ _ Hh) as [Ho Hnw]. pose proof (on_way_ends _ _ _ _ (pi_c _ _ H) Ho) as He.
    split; [|split; [done|split]].
    - destruct Ho as (_ & [rest E] & _). apply send_about. rewrite E. by left.
    - intros k t' Ht' Hw'. destruct (Hn k t' Ht' Hw') as (n' & -> & Hh'). intros [= ->]. by eapply (pi_diff _ _ H).
    - intros u. cbn [blocked]. rewrite Ht, En. split.
      + intros Hne. assert (unanswered (p_center s) n = true) as ->.
        { apply unanswered_nos. destruct (decide (n ∈ nos (p_center s))); [done|]. by apply He in n0. }
        destruct Hw as [-> | ->]; done.
      + intros Hend. assert (unanswered (p_center s) n = false) as ->.
        { apply not_true_is_false. rewrite unanswered_nos. by apply He. }
        by destruct (t_phase t).
  Qed.
  Lemma who_waits es :
    let s := pafter es in
    ∃ no : nat → nat, ∀ i t, tasks (p_sys s) !! i = Some t → waiting t →
      OSend (no i) (ty, RunHook (jid (t_job t)) true) ∈ p_trace s ∧ no i ∉ waited (p_trace s) ∧
      (∀ k t', tasks (p_sys s) !! k = Some t' → waiting t' → no k = no i → k = i) ∧
      ∀ u, let s' := pafter (es ++ [PEv (EvTask i u)]) in
        (¬ ended (no i) (p_trace s) → s' = s) ∧
        (ended (no i) (p_trace s) → p_sys s' = (step (p_sys s) (EvTask i u)).1).
  Proof.
    cbv zeta. destruct (who_blocked es) as (no & H). exists no. intros i t Ht Hw.
    destruct (H i t Ht Hw) as (H1 & H2 & H3 & H4). split; [done|]. split; [done|]. split; [done|].
    intros u. destruct (H4 u) as [H5 H6]. rewrite pafter_snoc. split.
    - intros E. cbn [psys_step]. by rewrite (H5 E).
    - intros E. apply free_goes, (H6 E).
  Qed.
  Lemma others_go es e :
    (∀ i u t, e = EvTask i u → tasks (p_sys (pafter es)) !! i = Some t → ¬ waiting t) →
    p_sys (pafter (es ++ [PEv e])) = (step (p_sys (pafter es)) e).1.
  Proof.
    intros H. rewrite pafter_snoc. apply free_goes. apply not_true_is_false.
    intros (i & u & t & n & E & Ht & Hw & _)%blocked_waits. by eapply H.
  Qed.

  (** *** For how long *)
  Lemma centre_sys (s : psys) e : of_centre e → p_sys (pstep s e) = p_sys s.
  Proof. destruct e; try done; intros _; cbn [psys_step]; [by destruct (handle _)|by destruct (poll _ _ _)]. Qed.
  Lemma centre_left (s : psys) e : of_centre e →
    (left_todo (p_center (pstep s e)) + length (p_trace (pstep s e)) <= left_todo (p_center s) + length (p_trace s))%nat.
  Proof.
    destruct e as [| | | |i ok]; try done; intros _; cbn [psys_step].
    - pose proof (left_handle (p_center s)). destruct (handle _) as [c os]. cbn in *. rewrite app_length. lia.
    - pose proof (left_poll (p_center s) i ok). destruct (poll _ _ _) as [c os]. cbn in *. rewrite app_length. lia.
  Qed.
  Lemma centre_run es ks : Forall of_centre ks →
    p_sys (pafter (es ++ ks)) = p_sys (pafter es) ∧
    (left_todo (p_center (pafter (es ++ ks))) + length (p_trace (pafter (es ++ ks))) <=
     left_todo (p_center (pafter es)) + length (p_trace (pafter es)))%nat.
  Proof.
    induction ks as [|e ks IH] using rev_ind; intros H; [by rewrite app_nil_r|].
    apply Forall_app in H as [H1 H2]. apply Forall_cons_1 in H2 as [H2 _]. destruct (IH H1) as [A1 A2].
    rewrite app_assoc, pafter_snoc. rewrite (centre_sys _ _ H2). split; [done|]. pose proof (centre_left (pafter (es ++ ks)) e H2). lia.
  Qed.
  Lemma bounded es : ∃ b, ∀ ks, Forall of_centre ks →
    p_sys (pafter (es ++ ks)) = p_sys (pafter es) ∧ (length (p_trace (pafter (es ++ ks))) <= b)%nat.
  Proof. eexists. intros ks H. destruct (centre_run es ks H). split; [done|]. etrans; [|exact H1]. lia. Qed.
  Definition next_one : pevent M → Prop := λ e, e = PHandle ∨ e = PPoll 0 true.
  Lemma centre_moves (s : psys) : nos (p_center s) ≠ [] →
    ∃ e, next_one e ∧ ∃ o, p_trace (pstep s e) = p_trace s ++ [o].
  Proof.
    intros H. destruct (c_box (p_center s)) as [|[n x] box] eqn:Eb.
    - destruct (c_futs (p_center s)) as [|f fs] eqn:Ef; [unfold nos in H; by rewrite Eb, Ef in H|].
      exists (PPoll 0 true). split; [by right|]. cbn [psys_step]. unfold poll. rewrite Ef. cbn.
      destruct (next_plugin _ _) as [[p rest]|]; cbn; eauto.
    - exists PHandle. split; [by left|]. cbn [psys_step]. unfold handle. rewrite Eb. destruct x; cbn; eauto.
  Qed.
  Lemma moves es n tm : OSend n tm ∈ lately (p_trace (pafter es)) → ¬ ended n (p_trace (pafter es)) →
    ∃ e, next_one e ∧ ∃ o, p_trace (pafter (es ++ [e])) = p_trace (pafter es) ++ [o].
  Proof.
    intros H1 H2. setoid_rewrite pafter_snoc. apply centre_moves. intros E. apply H2.
    eapply on_way_ends; [apply (pi_c _ _ (pinv_after prof sched name clock ty es))|by apply way_after|].
    rewrite E. by intros ?%elem_of_nil.
  Qed.
  Lemma empties es : ∃ ks, Forall next_one ks ∧ nos (p_center (pafter (es ++ ks))) = [].
  Proof.
    remember (left_todo (p_center (pafter es))) as m eqn:Em. revert es Em.
    induction (lt_wf m) as [m _ IH]. intros es ->.
    destruct (decide (nos (p_center (pafter es)) = [])) as [E|E]; [exists []; by rewrite app_nil_r|].
    destruct (centre_moves _ E) as (e & He & o & Ho).
    assert (of_centre e) as Hc by (by destruct He as [-> | ->]).
    pose proof (centre_left (pafter es) e Hc) as Hl. rewrite Ho, app_length in Hl. cbn in Hl.
    rewrite <-pafter_snoc in Hl. destruct (IH (left_todo (p_center (pafter (es ++ [e])))) ltac:(lia) (es ++ [e]) eq_refl) as (ks & H1 & H2).
    exists (e :: ks). split; [by constructor|]. by rewrite <-app_assoc in H2.
  Qed.
  Lemma drained_free es : ∃ ks, Forall next_one ks ∧
    let s' := pafter (es ++ ks) in
    p_sys s' = p_sys (pafter es) ∧
    (∀ n tm, OSend n tm ∈ lately (p_trace s') → ended n (p_trace s')) ∧
    ∀ e, blocked s' e = false.
  Proof.
    destruct (empties es) as (ks & H1 & H2). exists ks. split; [done|]. cbv zeta.
    assert (Forall of_centre ks) as Hc.
    { eapply list.Forall_impl; [exact H1|]. by intros e [-> | ->]. }
    destruct (centre_run es ks Hc) as [Hs _]. split; [done|]. split.
    - intros n tm Hn. eapply on_way_ends; [apply (pi_c _ _ (pinv_after prof sched name clock ty (es ++ ks)))|by apply way_after|].
      rewrite H2. by intros ?%elem_of_nil.
    - intros e. apply not_true_is_false.
      intros (i & u & t & n & _ & _ & _ & _ & Hn)%blocked_waits. rewrite H2 in Hn. by apply elem_of_nil in Hn.
  Qed.
  Lemma drained es : ∃ ks, Forall next_one ks ∧
    let s' := pafter (es ++ ks) in
    p_sys s' = p_sys (pafter es) ∧
    (∀ n tm, OSend n tm ∈ lately (p_trace s') → ended n (p_trace s')) ∧
    ∀ e, p_sys (pafter (es ++ ks ++ [PEv e])) = (step (p_sys (pafter es)) e).1.
  Proof.
    destruct (drained_free es) as (ks & H1 & H2 & H3 & H4). exists ks. split; [done|]. split; [done|]. split; [done|].
    intros e. rewrite app_assoc, pafter_snoc, <-H2. apply free_goes, H4.
  Qed.
End psys_wait.
