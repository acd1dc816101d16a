(** First use of job types; AJ::start. *)
From Verif Require Import SpecRegistry.

Lemma reg_run_app s es es' : reg_run s (es ++ es') = reg_run (reg_run s es) es'.
Proof. apply fold_left_app. Qed.
Lemma reg_run_cons s e es : reg_run s (e :: es) = reg_run (reg_step s e) es.
Proof. done. Qed.

Lemma lookup_snoc_iff {A} (l : list A) x a y :
  (l ++ [x]) !! a = Some y ↔ l !! a = Some y ∨ a = length l ∧ y = x.
Proof.
  rewrite lookup_app_Some. rewrite list_lookup_singleton_Some. split.
  - intros [H|(H1 & H2 & H3)]; [by left|right]. split; [lia|done].
  - intros [H|[-> ->]]; [by left|right]. split; [done|]. split; [lia|done].
Qed.

(** *** One queue per type and name *)
Record rinv (s : reg) : Prop := {
  ri_type : ∀ ty a, by_type s !! ty = Some a ↔ ∃ n, started s !! a = Some (ty, n);
  ri_name : ∀ n a, by_name s !! n = Some a ↔ ∃ ty, started s !! a = Some (ty, n);
  ri_call : ∀ i c x a, calls s !! i = Some (c, x) → x = CGot a ∨ x = CSent a → by_type s !! c_type c = Some a;
}.
Lemma rinv_init : rinv reg_init.
Proof.
  split; cbn.
  - intros ty a. rewrite lookup_empty. split; [done|]. by intros [n H].
  - intros n a. rewrite lookup_empty. split; [done|]. by intros [ty H].
  - intros i c x a H. done.
Qed.
(** A step that leaves the registry and gives no call a new address. *)
Lemma rinv_same s s' :
  by_type s' = by_type s → by_name s' = by_name s → started s' = started s →
  (∀ i c x a, calls s' !! i = Some (c, x) → x = CGot a ∨ x = CSent a → by_type s !! c_type c = Some a) →
  rinv s → rinv s'.
Proof.
  intros E1 E2 E3 H [H1 H2 H3]. split; rewrite ?E1, ?E2, ?E3; try done.
Qed.
Lemma lose_got p c x a : lose p = (c, x) → x = CGot a ∨ x = CSent a → ∃ x', p = (c, x') ∧ x' = x.
Proof.
  destruct p as [c' [| | |b|b| |]]; cbn; destruct (c_spawned c'); intros [= <- <-] [H|H]; try discriminate H; eexists; by split.
Qed.
Lemma rinv_panic s : rinv s → rinv (aj_panic s).
Proof.
  intros H. apply (rinv_same s); try done. intros i c x a E Hx. cbn [aj_panic calls] in E.
  rewrite list_lookup_fmap in E. destruct (calls s !! i) as [p|] eqn:Ep; [|done]. cbn in E. injection E as E.
  destruct (lose_got _ _ _ a E Hx) as (x' & -> & ->). eapply ri_call; eassumption.
Qed.
Lemma rinv_set s i c x :
  rinv s → (∀ a, x = CGot a ∨ x = CSent a → by_type s !! c_type c = Some a) →
  ∀ k c' x' a, <[i := (c, x)]> (calls s) !! k = Some (c', x') → x' = CGot a ∨ x' = CSent a → by_type s !! c_type c' = Some a.
Proof.
  intros Hr Hx k c' x' a E Ha. destruct (decide (k = i)) as [-> |Hne].
  - apply list_lookup_insert_Some in E as [(_ & [= <- <-] & _)|(Hne & _)]; [|done]. by apply Hx.
  - rewrite list_lookup_insert_ne in E by done. eapply ri_call; eassumption.
Qed.
Lemma rinv_step s e : rinv s → rinv (reg_step s e).
Proof.
  intros Hr. destruct e as [ty n|ty n|i|]; cbn [reg_step].
  - apply (rinv_same s); try done. intros i c x a E Hx. cbn [add_call calls] in E.
    apply lookup_app_Some in E as [E|[_ E]]; [eapply ri_call; eassumption|].
    apply list_lookup_singleton_Some in E as [_ [= <- <-]]. by destruct Hx.
  - destruct (aj_alive s); [|done]. apply (rinv_same s); try done. intros i c x a. exact (ri_call s Hr i c x a).
  - destruct (calls s !! i) as [[c x]|] eqn:E; [|done]. destruct x as [| | |a|a| |]; try done.
    + destruct (by_type s !! c_type c) as [a|] eqn:Ea; (apply (rinv_same s); [done|done|done| |done]);
        apply rinv_set; try done; intros a' [Ha|Ha]; try done. by injection Ha as <-.
    + destruct (aj_alive s); (apply (rinv_same s); [done|done|done| |done]);
        apply rinv_set; try done; by intros a' [Ha|Ha].
    + apply (rinv_same s); [done|done|done| |done]. apply rinv_set; [done|]. intros a' [Ha|Ha]; [done|]. injection Ha as <-.
      eapply ri_call; [done|done|by left].
  - destruct (aj_alive s) eqn:Eal; [|done]. destruct (inbox s) as [|m rest]; [done|].
    set (s' := Reg (by_type s) (by_name s) (started s) true rest (calls s)).
    assert (rinv s') as Hr' by (apply (rinv_same s); try done; intros i c x a; exact (ri_call s Hr i c x a)).
    destruct m as [i|ty n].
    + destruct (calls s !! i) as [[c x]|] eqn:E; [|done]. destruct x; try done. unfold register.
      destruct (by_name s' !! c_name c) eqn:En; [by apply rinv_panic|].
      destruct (by_type s' !! c_type c) eqn:Et; [by apply rinv_panic|].
      split; cbn -[lookup]; change (started s') with (started s); change (by_type s') with (by_type s) in *;
        change (by_name s') with (by_name s) in *; change (calls s') with (calls s).
      * intros ty a. rewrite lookup_insert_Some. setoid_rewrite lookup_snoc_iff. rewrite (ri_type s Hr). split.
        -- intros [[<- <-]|[Hne [n Hn]]]; [exists (c_name c); by right|]. exists n. by left.
        -- intros [n [Hn|[-> [= -> ->]]]]; [|by left]. right. split; [|by exists n]. intros <-.
           assert (by_type s !! c_type c = Some a) as Hx by (apply (ri_type s Hr); by exists n). congruence.
      * intros n a. rewrite lookup_insert_Some. setoid_rewrite lookup_snoc_iff. rewrite (ri_name s Hr). split.
        -- intros [[<- <-]|[Hne [ty Hn]]]; [exists (c_type c); by right|]. exists ty. by left.
        -- intros [ty [Hn|[-> [= -> ->]]]]; [|by left]. right. split; [|by exists ty]. intros <-.
           assert (by_name s !! c_name c = Some a) as Hx by (apply (ri_name s Hr); by exists ty). congruence.
      * intros k c' x' a Ek Hx. destruct (decide (k = i)) as [-> |Hne].
        -- apply list_lookup_insert_Some in Ek as [(_ & [= <- <-] & _)|(Hne & _)]; [|done].
           destruct Hx as [[= <-]|Hx]; [|done]. by rewrite lookup_insert.
        -- rewrite list_lookup_insert_ne in Ek by done.
           assert (by_type s !! c_type c' = Some a) as Ha by (eapply ri_call; eassumption).
           rewrite lookup_insert_ne; [done|]. intros E'. rewrite E' in Et. congruence.
    + apply (rinv_same s); try done. intros i c x a E Hx. cbn [add_call calls] in E.
      apply lookup_app_Some in E as [E|[_ E]]; [eapply ri_call; eassumption|].
      apply list_lookup_singleton_Some in E as [_ [= <- <-]]. by destruct Hx.
Qed.
Lemma rinv_run s es : rinv s → rinv (reg_run s es).
Proof. revert s. induction es as [|e es IH]; intros s H; [done|]. by apply IH, rinv_step. Qed.

Lemma one_queue es :
  let s := reg_run reg_init es in
  NoDup (started s).*1 ∧ NoDup (started s).*2 ∧
  ∀ i c a, calls s !! i = Some (c, CSent a) → ∃ n, started s !! a = Some (c_type c, n).
Proof.
  cbv zeta. assert (rinv (reg_run reg_init es)) as Hr by apply rinv_run, rinv_init.
  set (s := reg_run reg_init es) in *. split; [|split].
  - apply NoDup_alt. intros a b ty Ea Eb. rewrite list_lookup_fmap_Some in Ea, Eb.
    destruct Ea as ([ty1 n1] & Ea & ->), Eb as ([ty2 n2] & Eb & E). cbn [fst snd] in *. subst.
    assert (by_type s !! ty2 = Some a) as H1 by (apply (ri_type s Hr); by exists n1).
    assert (by_type s !! ty2 = Some b) as H2 by (apply (ri_type s Hr); by exists n2). congruence.
  - apply NoDup_alt. intros a b n Ea Eb. rewrite list_lookup_fmap_Some in Ea, Eb.
    destruct Ea as ([ty1 n1] & Ea & ->), Eb as ([ty2 n2] & Eb & E). cbn [fst snd] in *. subst.
    assert (by_name s !! n2 = Some a) as H1 by (apply (ri_name s Hr); by exists ty1).
    assert (by_name s !! n2 = Some b) as H2 by (apply (ri_name s Hr); by exists ty2). congruence.
  - intros i c a E. apply (ri_type s Hr). eapply ri_call; [done|done|by right].
Qed.

(** *** Orderly histories *)
Definition inits (l : list aj_msg) : list nat := omap (λ m, match m with MInit i => Some i | _ => None end) l.
Definition pend (x : call_state) : Prop := x = CInit ∨ x = CWait.
Lemma inits_app l l' : inits (l ++ l') = inits l ++ inits l'.
Proof. apply omap_app. Qed.

Section orderly.
  Context (nm : nat → string) (Hnm : ∀ a b, nm a = nm b → a = b).
  Record oinv (s : reg) : Prop := {
    oi_alive : aj_alive s = true;
    oi_names : ∀ i c x, calls s !! i = Some (c, x) → c_name c = nm (c_type c);
    oi_just : ∀ ty n, MJust ty n ∈ inbox s → n = nm ty;
    oi_reg : ∀ ty, by_name s !! nm ty = by_type s !! ty;
    oi_fine : ∀ i c x, calls s !! i = Some (c, x) → x ≠ CFailed ∧ x ≠ CDropped;
    oi_one : ∀ i k c x c' x', calls s !! i = Some (c, x) → calls s !! k = Some (c', x') → pend x → pend x' →
      c_type c = c_type c' → i = k;
    oi_unreg : ∀ i c x, calls s !! i = Some (c, x) → pend x → by_type s !! c_type c = None;
    oi_inits : ∀ i, i ∈ inits (inbox s) ↔ ∃ c, calls s !! i = Some (c, CWait);
    oi_nodup : NoDup (inits (inbox s));
  }.
  Lemma oinv_init : oinv reg_init.
  Proof.
    split; try done.
    - by intros ty n H%elem_of_nil.
    - intros i. split; [by intros H%elem_of_nil|]. by intros [c H].
    - constructor.
  Qed.
  Lemma oinv_add s c : oinv s → c_name c = nm (c_type c) → oinv (add_call s c).
  Proof.
    intros H Hc. pose proof H as [H1 H2 H3 H4 H5 H6 H7 H8 H9]. split; cbn [add_call aj_alive calls inbox by_type by_name]; try done.
    - intros i c' x E. apply lookup_snoc_iff in E as [E|[_ [= -> ->]]]; [by eapply H2|done].
    - intros i c' x E. apply lookup_snoc_iff in E as [E|[_ [= -> ->]]]; [by eapply H5|done].
    - intros i k c1 x1 c2 x2 E1 E2 P1 P2. apply lookup_snoc_iff in E1 as [E1|[_ [= -> ->]]]; [|by destruct P1].
      apply lookup_snoc_iff in E2 as [E2|[_ [= -> ->]]]; [|by destruct P2]. by eapply H6.
    - intros i c' x E P. apply lookup_snoc_iff in E as [E|[_ [= -> ->]]]; [by eapply H7|by destruct P].
    - intros i. rewrite H8. split; intros [c' E]; exists c'.
      + rewrite lookup_snoc_iff. by left.
      + by apply lookup_snoc_iff in E as [E|[_ [=]]].
  Qed.
  (** One call goes on without waiting or registration. *)
  Lemma oinv_set s i c x x' :
    oinv s → calls s !! i = Some (c, x) → x ≠ CWait → x' ≠ CWait → x' ≠ CFailed → x' ≠ CDropped →
    (pend x' → by_type s !! c_type c = None ∧
       ∀ k c' y, calls s !! k = Some (c', y) → pend y → c_type c' ≠ c_type c) →
    oinv (set_call s i c x').
  Proof.
    intros H E Hx N1 N2 N3 Hp. pose proof H as [H1 H2 H3 H4 H5 H6 H7 H8 H9].
    assert (i < length (calls s))%nat as Hlt by (by eapply lookup_lt_Some).
    split; cbn [set_call aj_alive calls inbox by_type by_name]; try done.
    - intros k c' y E'. apply list_lookup_insert_Some in E' as [(<- & [= <- <-] & _)|(Hne & E')]; by eapply H2.
    - intros k c' y E'. apply list_lookup_insert_Some in E' as [(<- & [= <- <-] & _)|(Hne & E')]; [done|]. by eapply H5.
    - intros k1 k2 c1 x1 c2 x2 E1 E2 P1 P2 Et.
      apply list_lookup_insert_Some in E1 as [(<- & [= <- <-] & _)|(Hne1 & E1)];
      apply list_lookup_insert_Some in E2 as [(<- & [= <- <-] & _)|(Hne2 & E2)]; [done| | |by eapply H6].
      + destruct (Hp P1) as [_ Hp']. by destruct (Hp' _ _ _ E2 P2).
      + destruct (Hp P2) as [_ Hp']. by destruct (Hp' _ _ _ E1 P1).
    - intros k c' y E' P. apply list_lookup_insert_Some in E' as [(<- & [= <- <-] & _)|(Hne & E')]; [by apply Hp|]. by eapply H7.
    - intros k. rewrite H8. split; intros [c' E']; exists c'.
      + rewrite list_lookup_insert_ne; [done|]. intros ->. rewrite E in E'. by injection E' as -> ->.
      + by apply list_lookup_insert_Some in E' as [(_ & [= _ ->] & _)|(Hne & E')].
  Qed.
  Lemma oinv_step s e : oinv s → uses_names nm e → takes_turn s e → oinv (reg_step s e).
  Proof.
    intros H Hn Ht. pose proof H as [H1 H2 H3 H4 H5 H6 H7 H8 H9]. destruct e as [ty n|ty n|i|]; cbn [reg_step].
    - by apply oinv_add.
    - rewrite H1. split; cbn [aj_alive calls inbox by_type by_name]; try done.
      + intros ty' n'. rewrite elem_of_app, elem_of_list_singleton. intros [E|[= -> ->]]; [by apply H3|done].
      + intros i. rewrite inits_app, app_nil_r. apply H8.
      + by rewrite inits_app, app_nil_r.
    - destruct (calls s !! i) as [[c x]|] eqn:E; [|done]. destruct x as [| | |a|a| |]; try done.
      + destruct (by_type s !! c_type c) as [a|] eqn:Ea.
        * eapply oinv_set; try done. by intros [|].
        * eapply oinv_set; try done. intros _. split; [done|]. intros k c' y E' P Et. apply (Ht c E). exists k, c', y. by destruct P; auto.
      + rewrite H1. assert (i < length (calls s))%nat as Hlt by (by eapply lookup_lt_Some).
        split; cbn [aj_alive calls inbox by_type by_name]; try done.
        * intros k c' y E'. apply list_lookup_insert_Some in E' as [(<- & [= <- <-] & _)|(Hne & E')]; by eapply H2.
        * intros ty n. rewrite elem_of_app, elem_of_list_singleton. intros [E'|E']; [by apply H3|done].
        * intros k c' y E'. apply list_lookup_insert_Some in E' as [(<- & [= <- <-] & _)|(Hne & E')]; [done|]. by eapply H5.
        * intros k1 k2 c1 x1 c2 x2 E1 E2 P1 P2 Et.
          apply list_lookup_insert_Some in E1 as [(<- & [= <- <-] & _)|(Hne1 & E1)];
          apply list_lookup_insert_Some in E2 as [(<- & [= <- <-] & _)|(Hne2 & E2)]; [done| | |by eapply H6].
          -- eapply H6; [exact E|exact E2|by left|done|done].
          -- eapply H6; [exact E1|exact E|done|by left|done].
        * intros k c' y E' P. apply list_lookup_insert_Some in E' as [(<- & [= <- <-] & _)|(Hne & E')]; [|by eapply H7].
          eapply H7; [exact E|by left].
        * intros k. rewrite inits_app. change (inits [MInit i]) with [i]. rewrite elem_of_app, elem_of_list_singleton, H8. split.
          -- intros [[c' E']| ->]; [|exists c; by apply list_lookup_insert]. exists c'. rewrite list_lookup_insert_ne; [done|]. intros ->.
             rewrite E in E'. by injection E'.
          -- intros [c' E']. apply list_lookup_insert_Some in E' as [(<- & _ & _)|(Hne & E')]; [by right|]. left. by exists c'.
        * rewrite inits_app. change (inits [MInit i]) with [i]. apply NoDup_app. split; [done|]. split; [|apply NoDup_singleton].
          intros k Hk ->%elem_of_list_singleton. apply H8 in Hk as [c' E']. rewrite E in E'. by injection E'.
      + eapply oinv_set; try done. by intros [|].
    - rewrite H1. destruct (inbox s) as [|m rest] eqn:Ei; [done|]. destruct m as [i|ty n].
      + assert (i ∈ inits (inbox s)) as Hi by (rewrite Ei; left). rewrite Ei in Hi. apply H8 in Hi as [c E]. rewrite E.
        unfold register. cbn [by_name by_type calls started inbox aj_alive].
        assert (by_type s !! c_type c = None) as Et by (eapply H7; [exact E|by right]).
        rewrite (H2 _ _ _ E), H4, Et. cbn [inits omap list_omap] in H8, H9. fold (inits rest) in H8, H9.
        apply list.NoDup_cons in H9 as [H9 H9'].
        split; cbn [aj_alive calls inbox by_type by_name]; try done.
        * intros k c' y E'. apply list_lookup_insert_Some in E' as [(<- & [= <- <-] & _)|(Hne & E')]; by eapply H2.
        * intros ty n Hin. apply H3. by right.
        * intros ty. destruct (decide (ty = c_type c)) as [-> |Hne]; [by rewrite !lookup_insert|].
          rewrite !lookup_insert_ne; [done|done|]. intros E'. by apply Hnm in E'.
        * intros k c' y E'. apply list_lookup_insert_Some in E' as [(<- & [= <- <-] & _)|(Hne & E')]; [done|]. by eapply H5.
        * intros k1 k2 c1 x1 c2 x2 E1 E2 P1 P2 Et'.
          apply list_lookup_insert_Some in E1 as [(<- & [= <- <-] & _)|(Hne1 & E1)]; [by destruct P1|].
          apply list_lookup_insert_Some in E2 as [(<- & [= <- <-] & _)|(Hne2 & E2)]; [by destruct P2|by eapply H6].
        * intros k c' y E' P. apply list_lookup_insert_Some in E' as [(<- & [= <- <-] & _)|(Hne & E')]; [by destruct P|].
          rewrite lookup_insert_ne; [by eapply H7|]. intros E''. apply Hne. eapply H6; [exact E|exact E'|by right|done|done].
        * intros k. split.
          -- intros Hk. assert (k ≠ i) as Hki by (by intros ->). destruct (proj1 (H8 k)) as [c' E']; [by right|].
             exists c'. by rewrite list_lookup_insert_ne.
          -- intros [c' E']. apply list_lookup_insert_Some in E' as [(<- & [=] & _)|(Hne & E')].
             assert (k ∈ i :: inits rest) as Hk by (apply H8; by exists c'). apply elem_of_cons in Hk as [-> |Hk]; done.
      + apply oinv_add; [|by apply H3; left].
        split; cbn [aj_alive calls inbox by_type by_name]; try done. intros ty' n' Hin. apply H3. by right.
  Qed.
  Lemma oinv_run s es : oinv s → Forall (uses_names nm) es → orderly s es → oinv (reg_run s es).
  Proof.
    revert s. induction es as [|e es IH]; intros s H Hn Ho; [done|]. apply list.Forall_cons in Hn as [Hn1 Hn2]. destruct Ho as [Ho1 Ho2].
    rewrite reg_run_cons. apply IH; [by apply oinv_step|done|done].
  Qed.

  (** Every step brings the calls closer to the end. *)
  Definition todo (p : call * call_state) : nat :=
    match p.2 with CLook => 4 | CInit => 3 | CWait => 2 | CGot _ => 1 | _ => 0 end.
  Definition waiting (m : aj_msg) : nat := match m with MJust _ _ => 5 | MInit _ => 0 end.
  Fixpoint sum_of {A} (f : A → nat) (l : list A) : nat := match l with [] => 0 | x :: l' => f x + sum_of f l' end.
  Definition left_to_do (s : reg) : nat := (sum_of todo (calls s) + sum_of waiting (inbox s))%nat.
  Lemma sum_insert (l : list (call * call_state)) i p q :
    l !! i = Some p → (sum_of todo (<[i := q]> l) + todo p = sum_of todo l + todo q)%nat.
  Proof.
    revert i. induction l as [|r l IH]; intros [|i] E; [done|done| |].
    - injection E as ->. cbn [sum_of insert list_insert]. lia.
    - specialize (IH i E). change (<[S i := q]> (r :: l)) with (r :: <[i := q]> l). cbn [sum_of]. lia.
  Qed.
  Lemma sum_snoc {A} (f : A → nat) l x : sum_of f (l ++ [x]) = (sum_of f l + f x)%nat.
  Proof. induction l as [|y l IH]; cbn [sum_of app]; lia. Qed.

  Definition not_sent (p : call * call_state) : bool := match p.2 with CSent _ => false | _ => true end.
  Definition at_init (p : call * call_state) : bool := match p.2 with CInit => true | _ => false end.
  (** Some call or AJ can proceed, unless all is done. *)
  Lemma proceed s : rinv s → oinv s →
    all_sent s ∨ ∃ e, internal e ∧ takes_turn s e ∧ (left_to_do (reg_step s e) < left_to_do s)%nat.
  Proof.
    intros Hr H. pose proof H as [H1 H2 H3 H4 H5 H6 H7 H8 H9].
    destruct (inbox s) as [|m rest] eqn:Ei.
    2:{ right. exists RHandle. split; [done|]. split; [done|]. cbn [reg_step]. rewrite H1, Ei. destruct m as [i|ty n].
        - destruct (proj1 (H8 i)) as [c E]; [left|]. rewrite E. unfold register. cbn [by_name by_type calls started inbox aj_alive].
          assert (by_type s !! c_type c = None) as Et by (eapply H7; [exact E|by right]).
          rewrite (H2 _ _ _ E), H4, Et. unfold left_to_do. cbn [calls inbox]. rewrite Ei. cbn [sum_of waiting].
          pose proof (sum_insert _ _ _ (c, CGot (length (started s))) E) as Hs. cbn [todo snd] in Hs. lia.
        - unfold left_to_do. cbn [calls inbox add_call]. rewrite Ei, sum_snoc. cbn [sum_of todo snd waiting]. lia. }
    destruct (decide (Exists (λ p, not_sent p = true) (calls s))) as [([c x] & Hi & Hp)%list.Exists_exists|Hno].
    - right. apply elem_of_list_lookup in Hi as [i E].
      assert (∀ k c' x', calls s !! k = Some (c', x') → x' = CInit ∨ (∃ a, x' = CGot a) →
        ∃ e, internal e ∧ takes_turn s e ∧ (left_to_do (reg_step s e) < left_to_do s)%nat) as Hstep.
      { intros k c' x' E' Hx'. exists (RStep k). split; [done|]. split.
        - intros c'' E''. rewrite E' in E''. injection E'' as -> ->. destruct Hx' as [|[a ?]]; done.
        - cbn [reg_step]. rewrite E'. destruct Hx' as [-> |[a ->]].
          + rewrite H1. unfold left_to_do. cbn [calls inbox]. rewrite sum_snoc.
            pose proof (sum_insert _ _ _ (c', CWait) E') as Hs. cbn [todo snd waiting] in *. lia.
          + unfold left_to_do. cbn [set_call calls inbox].
            pose proof (sum_insert _ _ _ (c', CSent a) E') as Hs. cbn [todo snd waiting] in *. lia. }
      destruct x as [| | |a|a| |].
      + destruct (decide (Exists (λ p, at_init p = true) (calls s))) as [([c' x'] & Hk & Hp')%list.Exists_exists|Hnk].
        { apply elem_of_list_lookup in Hk as [k E']. eapply Hstep; [exact E'|left]. by destruct x'. }
        exists (RStep i). split; [done|]. split.
        * intros c0 E0. rewrite E in E0. injection E0 as <-. intros (k & c' & x & E' & Et & [-> | ->]).
          -- apply Hnk. apply list.Exists_exists. exists (c', CInit). split; [by eapply elem_of_list_lookup_2|done].
          -- assert (k ∈ inits []) as Hin by (apply H8; by exists c'). by apply elem_of_nil in Hin.
        * cbn [reg_step]. rewrite E. unfold left_to_do. destruct (by_type s !! c_type c) as [a|]; cbn [set_call calls inbox].
          -- pose proof (sum_insert _ _ _ (c, CGot a) E) as Hs. cbn [todo snd] in *. lia.
          -- pose proof (sum_insert _ _ _ (c, CInit) E) as Hs. cbn [todo snd] in *. lia.
      + eapply Hstep; [exact E|by left].
      + assert (i ∈ inits []) as Hin by (apply H8; by exists c). by apply elem_of_nil in Hin.
      + eapply Hstep; [exact E|right; by exists a].
      + done.
      + by destruct (H5 _ _ _ E).
      + by destruct (H5 _ _ _ E).
    - left. split; [done|]. intros i c x E.
      destruct x as [| | |a|a| |]; try (exfalso; apply Hno, list.Exists_exists; eexists; split; [by eapply elem_of_list_lookup_2|done]).
      exists a. destruct (proj1 (ri_type s Hr (c_type c) a)) as [n Hn]; [|by exists n]. eapply ri_call; [done|done|by right].
  Qed.
End orderly.

Lemma orderly_app s es es' : orderly s (es ++ es') ↔ orderly s es ∧ orderly (reg_run s es) es'.
Proof.
  revert s. induction es as [|e es IH]; intros s; cbn [orderly app]; [tauto|]. rewrite IH, reg_run_cons. tauto.
Qed.
Lemma finish nm s : (∀ a b, nm a = nm b → a = b) → rinv s → oinv nm s →
  ∃ es', Forall internal es' ∧ orderly s es' ∧ all_sent (reg_run s es').
Proof.
  intros Hnm. remember (left_to_do s) as n eqn:En. revert s En.
  induction n as [n IH] using lt_wf_ind. intros s -> Hr Ho. destruct (proceed nm s Hr Ho) as [H|(e & Hi & Ht & Hlt)].
  - exists []. done.
  - destruct (IH _ Hlt (reg_step s e) eq_refl) as (es' & H1 & H2 & H3).
    + by apply rinv_step.
    + apply oinv_step; [done|done| |done]. by destruct e.
    + exists (e :: es'). split; [by constructor|]. done.
Qed.
Lemma orderly_calls nm es : (∀ a b, nm a = nm b → a = b) → Forall (uses_names nm) es → orderly reg_init es →
  let s := reg_run reg_init es in
  aj_alive s = true ∧ (∀ i c x, calls s !! i = Some (c, x) → x ≠ CFailed ∧ x ≠ CDropped) ∧
  ∃ es', Forall internal es' ∧ orderly s es' ∧ all_sent (reg_run s es').
Proof.
  intros Hnm Hn Ho. cbv zeta.
  assert (oinv nm (reg_run reg_init es)) as H by (apply oinv_run; [done|apply oinv_init|done|done]).
  split; [apply H|]. split; [apply H|]. eapply finish; [exact Hnm|apply rinv_run, rinv_init|done].
Qed.

(** *** The race *)
Lemma race s i j c c' :
  aj_alive s = true → inbox s = [] → i ≠ j →
  calls s !! i = Some (c, CInit) → calls s !! j = Some (c', CInit) →
  c_type c = c_type c' ∨ c_name c = c_name c' →
  let s' := reg_run s [RStep i; RStep j; RHandle; RHandle] in
  aj_alive s' = false ∧
  calls s' !! j = Some (c', if c_spawned c' then CDropped else CFailed).
Proof.
  intros Ha Hi Hne Ei Ej Hc. cbv zeta.
  assert (i < length (calls s))%nat as Li by (by eapply lookup_lt_Some).
  assert (j < length (calls s))%nat as Lj by (by eapply lookup_lt_Some).
  rewrite reg_run_cons. cbn [reg_step]. rewrite Ei, Ha, Hi. rewrite reg_run_cons. cbn [reg_step calls aj_alive inbox].
  rewrite list_lookup_insert_ne, Ej by done. cbn [app by_type by_name started calls].
  rewrite reg_run_cons. cbn [reg_step calls aj_alive inbox]. rewrite list_lookup_insert_ne, list_lookup_insert by done.
  set (l := <[j := (c', CWait)]> (<[i := (c, CWait)]> (calls s))).
  assert (l !! j = Some (c', CWait)) as El by (apply list_lookup_insert; by rewrite insert_length).
  assert (length l = length (calls s)) as Ll by (unfold l; by rewrite !insert_length).
  clearbody l. unfold register. cbn [by_type by_name started calls aj_alive inbox].
  assert (∀ s1, aj_alive s1 = true → inbox s1 = [MInit j] → calls s1 !! j = Some (c', CWait) →
    (∃ a, by_name s1 !! c_name c' = Some a) ∨ (∃ a, by_type s1 !! c_type c' = Some a) →
    aj_alive (reg_run s1 [RHandle]) = false ∧
    calls (reg_run s1 [RHandle]) !! j = Some (c', if c_spawned c' then CDropped else CFailed)) as Hsecond.
  { intros s1 A1 A2 A3 A4. cbn [reg_run fold_left reg_step]. rewrite A1, A2, A3. unfold register. cbn [by_type by_name].
    assert (∀ s2, calls s2 = calls s1 → aj_alive (aj_panic s2) = false ∧
      calls (aj_panic s2) !! j = Some (c', if c_spawned c' then CDropped else CFailed)) as Hp.
    { intros s2 E2. split; [done|]. cbn [aj_panic calls]. rewrite list_lookup_fmap, E2, A3. cbn. by destruct (c_spawned c'). }
    destruct A4 as [[a ->]|[a E]]; [by apply Hp|]. rewrite E. destruct (by_name s1 !! c_name c'); by apply Hp. }
  assert (∀ s2, calls s2 = l → let s3 := reg_run (aj_panic s2) [RHandle] in
    aj_alive s3 = false ∧ calls s3 !! j = Some (c', if c_spawned c' then CDropped else CFailed)) as Hfirst.
  { intros s2 E2. change (reg_run (aj_panic s2) [RHandle]) with (aj_panic s2). split; [done|]. cbn [aj_panic calls].
    rewrite list_lookup_fmap, E2, El. cbn. by destruct (c_spawned c'). }
  destruct (by_name s !! c_name c) eqn:En; [by apply Hfirst|].
  destruct (by_type s !! c_type c) eqn:Et; [by apply Hfirst|].
  apply Hsecond; cbn [aj_alive inbox calls by_name by_type]; [done|done|by rewrite list_lookup_insert_ne|].
  destruct Hc as [<- | <-]; [right|left]; eexists; by rewrite lookup_insert.
Qed.

(** *** A dead AJ *)
Record dinv (s0 s : reg) : Prop := {
  di_alive : aj_alive s = false;
  di_started : started s = started s0;
  di_type : by_type s = by_type s0;
}.
Lemma dinv_step s0 s e : dinv s0 s → dinv s0 (reg_step s e).
Proof.
  intros [H1 H2 H3]. destruct e as [ty n|ty n|i|]; cbn [reg_step]; rewrite ?H1; try (by split).
  destruct (calls s !! i) as [[c []]|]; try (by split). rewrite H3. by destruct (by_type s0 !! c_type c); split.
Qed.
Lemma dead_for_ever s es : aj_alive s = false →
  aj_alive (reg_run s es) = false ∧ started (reg_run s es) = started s ∧ by_type (reg_run s es) = by_type s.
Proof.
  intros H. enough (dinv s (reg_run s es)) as [] by done.
  assert (dinv s s) as Hs by done. revert Hs. generalize s at 2 4. intros s1 Hs. revert s1 Hs.
  induction es as [|e es IH]; intros s1 Hs; [done|]. rewrite reg_run_cons. by apply IH, dinv_step.
Qed.
(** No job of a type that was not registered before reaches a queue. *)
Lemma dead_no_new_type es es' c i a :
  aj_alive (reg_run reg_init es) = false →
  calls (reg_run reg_init (es ++ es')) !! i = Some (c, CSent a) →
  c_type c ∈ (started (reg_run reg_init es)).*1.
Proof.
  intros H E. destruct (one_queue (es ++ es')) as (_ & _ & Hq). destruct (Hq _ _ _ E) as [n Hn].
  rewrite reg_run_app in Hn. destruct (dead_for_ever (reg_run reg_init es) es' H) as (_ & E2 & _). rewrite E2 in Hn.
  apply elem_of_list_fmap. exists (c_type c, n). split; [done|]. by eapply elem_of_list_lookup_2.
Qed.

(** *** AJ::start *)
Lemma boot_run_app s es es' : boot_run s (es ++ es') = boot_run (boot_run s es) es'.
Proof. apply fold_left_app. Qed.
Lemma boot_run_cons s e es : boot_run s (e :: es) = boot_run (boot_step s e) es.
Proof. done. Qed.

(** Every address handed out belongs to an AJ that was started. *)
Definition addr_ok (n : nat) (x : start_state) : Prop :=
  match x with
  | SCreated a | SWriting a | SReturned a | GReturned (Some a) => (a < n)%nat
  | _ => True
  end.
Record binv (s : boot) : Prop := {
  bi_threads : Forall (addr_ok (actors s)) (threads s);
  bi_slot : ∀ a, slot s = Some a → (a < actors s)%nat;
}.
Lemma addr_ok_mono n m x : (n ≤ m)%nat → addr_ok n x → addr_ok m x.
Proof. intros H. destruct x as [| | | | | | | | | | |[]]; cbn; try done; lia. Qed.
Lemma binv_step s e : binv s → binv (boot_step s e).
Proof.
  intros H. pose proof H as [H1 H2]. destruct e as [| |i]; cbn [boot_step].
  - split; cbn [threads actors slot]; [|done]. apply Forall_app. split; [done|]. by repeat constructor.
  - split; cbn [threads actors slot]; [|done]. apply Forall_app. split; [done|]. by repeat constructor.
  - destruct (threads s !! i) as [x|] eqn:E; [|done].
    assert (addr_ok (actors s) x) as Hx by (by eapply Forall_lookup_1).
    destruct x as [| | |a|a| | |a| | | |o]; try done.
    + destruct (writer s); split; cbn [set_thread take_read threads actors slot]; try done; by apply Forall_insert.
    + split; cbn [drop_read threads actors slot]; [|done]. apply Forall_insert; [done|].
      destruct (slot s) as [a|] eqn:Es; [|done]. by apply H2.
    + split; cbn [threads actors slot].
      * apply Forall_insert; [|cbn; lia]. eapply list.Forall_impl; [exact H1|]. intros y. apply addr_ok_mono. lia.
      * intros a Ha. specialize (H2 a Ha). lia.
    + destruct (_ || _); split; cbn [set_thread threads actors slot]; try done; by apply Forall_insert.
    + split; cbn [threads actors slot]; [by apply Forall_insert|]. intros a' [= <-]. exact Hx.
    + destruct (writer s); split; cbn [set_thread take_read threads actors slot]; try done; by apply Forall_insert.
    + split; cbn [drop_read threads actors slot]; [|done]. apply Forall_insert; [done|].
      destruct (slot s) as [a|] eqn:Es; [|done]. by apply H2.
    + destruct (writer s); split; cbn [set_thread take_read threads actors slot]; try done; by apply Forall_insert.
    + split; cbn [drop_read threads actors slot]; [|done]. apply Forall_insert; [done|].
      destruct (slot s) as [a|] eqn:Es; [|done]. by apply H2.
Qed.
Lemma returned_started es i a :
  threads (boot_run boot_init es) !! i = Some (SReturned a) → (a < actors (boot_run boot_init es))%nat.
Proof.
  enough (∀ s, binv s → binv (boot_run s es)) as H.
  { intros E. assert (binv (boot_run boot_init es)) as [H1 _] by (apply H; split; [constructor|done]).
    exact (Forall_lookup_1 _ _ _ _ H1 E). }
  induction es as [|e es IH]; intros s Hs; [done|]. rewrite boot_run_cons. by apply IH, binv_step.
Qed.

(** After an undisturbed first start. *)
Definition settled (a : nat) (x : start_state) : Prop :=
  match x with
  | SFirst | SFirstHeld | GFirst | GHeld => True
  | SReturned b => b = a
  | GReturned o => o = Some a
  | _ => False
  end.
Record sinv (a : nat) (s : boot) : Prop := {
  si_slot : slot s = Some a;
  si_writer : writer s = false;
  si_actors : actors s = S a;
  si_threads : Forall (settled a) (threads s);
}.
Lemma sinv_step a s e : sinv a s → sinv a (boot_step s e).
Proof.
  intros [H1 H2 H3 H4]. destruct e as [| |i]; cbn [boot_step].
  - split; cbn; try done. apply Forall_app. split; [done|]. by repeat constructor.
  - split; cbn; try done. apply Forall_app. split; [done|]. by repeat constructor.
  - destruct (threads s !! i) as [x|] eqn:E; [|by split].
    assert (settled a x) as Hx by (by eapply Forall_lookup_1).
    destruct x as [| | |b|b| | |b| | | |o]; try done; rewrite ?H1, ?H2; (split; cbn; try done; by apply Forall_insert).
Qed.
Lemma first_alone es :
  let s := boot_run boot_init (BStart :: repeat (BStep 0) 7 ++ es) in
  actors s = 1%nat ∧ slot s = Some 0%nat ∧
  ∀ i x, threads s !! i = Some x → x ≠ SPanicked ∧ (∀ a, x = SReturned a → a = 0%nat) ∧ (∀ o, x = GReturned o → o = Some 0%nat).
Proof.
  cbv zeta. change (BStart :: repeat (BStep 0) 7 ++ es) with ((BStart :: repeat (BStep 0) 7) ++ es). rewrite boot_run_app.
  assert (sinv 0 (boot_run boot_init (BStart :: repeat (BStep 0) 7))) as Hs.
  { split; try done. by repeat constructor. }
  revert Hs. generalize (boot_run boot_init (BStart :: repeat (BStep 0) 7)). intros s Hs.
  assert (sinv 0 (boot_run s es)) as [H1 H2 H3 H4].
  { revert s Hs. induction es as [|e es IH]; intros s Hs; [done|]. rewrite boot_run_cons. by apply IH, sinv_step. }
  split; [done|]. split; [done|]. intros i x E. assert (settled 0 x) as Hx by (by eapply Forall_lookup_1).
  split; [by intros ->|]. split; [by intros a ->|by intros o ->].
Qed.

(** A reader in the way of the first start. *)
Lemma reader_panics s i g a :
  slot s = None → writer s = false → i ≠ g →
  threads s !! i = Some (SCreated a) → threads s !! g = Some GFirst →
  let s' := boot_run s [BStep g; BStep i; BStep i; BStep i] in
  threads s' !! i = Some SPanicked ∧ slot s' = None.
Proof.
  intros H1 H2 Hne Ei Eg.
  assert (i < length (threads s))%nat as Li by (by eapply lookup_lt_Some).
  assert (g < length (threads s))%nat as Lg by (by eapply lookup_lt_Some).
  cbv zeta. rewrite boot_run_cons. cbn [boot_step]. rewrite Eg, H2. unfold take_read.
  rewrite boot_run_cons. cbn [boot_step threads readers writer].
  rewrite list_lookup_insert_ne, Ei, H2 by done. cbn [orb Nat.eqb negb]. unfold set_thread.
  rewrite boot_run_cons. cbn [boot_step threads writer slot readers actors].
  rewrite list_lookup_insert by (by rewrite ?insert_length). unfold take_read.
  cbn [boot_run fold_left boot_step threads slot actors readers writer].
  rewrite list_lookup_insert by (by rewrite ?insert_length). rewrite H1.
  cbn [drop_read threads slot]. split; [|done]. apply list_lookup_insert. by rewrite ?insert_length.
Qed.
(** Two starts that both found no AJ. *)
Lemma two_starts s i j :
  slot s = None → writer s = false → readers s = 0%nat → i ≠ j →
  threads s !! i = Some SCreate → threads s !! j = Some SCreate →
  let one k := repeat (BStep k) 5 in
  let s' := boot_run s (one i ++ one j) in
  actors s' = S (S (actors s)) ∧
  threads s' !! i = Some (SReturned (actors s)) ∧ threads s' !! j = Some (SReturned (S (actors s))).
Proof.
  intros H1 H2 H3 Hne Ei Ej. cbv zeta.
  assert (∀ s k, writer s = false → readers s = 0%nat → threads s !! k = Some SCreate →
    boot_run s (repeat (BStep k) 5) =
    Boot (Some (actors s)) 0 false (S (actors s)) (<[k := SReturned (actors s)]> (threads s))) as Hone.
  { clear. intros s k H2 H3 Ek. assert (k < length (threads s))%nat as Lk by (by eapply lookup_lt_Some).
    change (repeat (BStep k) 5) with [BStep k; BStep k; BStep k; BStep k; BStep k].
    rewrite boot_run_cons. cbn [boot_step]. rewrite Ek.
    rewrite boot_run_cons. cbn [boot_step threads writer readers slot actors].
    rewrite list_lookup_insert by done. rewrite H2, H3. cbn [orb negb Nat.eqb].
    rewrite boot_run_cons. cbn [boot_step threads writer readers slot actors].
    rewrite list_lookup_insert by (by rewrite ?insert_length).
    rewrite boot_run_cons. cbn [boot_step threads writer readers slot actors].
    rewrite list_lookup_insert by (by rewrite ?insert_length). unfold take_read.
    rewrite boot_run_cons. cbn [boot_step threads writer readers slot actors].
    rewrite list_lookup_insert by (by rewrite ?insert_length). unfold drop_read.
    cbn [boot_run fold_left threads writer readers slot actors pred]. by rewrite !list_insert_insert. }
  rewrite boot_run_app, (Hone s i H2 H3 Ei). rewrite Hone; cbn [writer readers threads actors].
  - assert (i < length (threads s))%nat as Li by (by eapply lookup_lt_Some).
    assert (j < length (threads s))%nat as Lj by (by eapply lookup_lt_Some).
    split; [done|]. split.
    + rewrite list_lookup_insert_ne by done. by apply list_lookup_insert.
    + apply list_lookup_insert. by rewrite insert_length.
  - done.
  - done.
  - by rewrite list_lookup_insert_ne.
Qed.
Lemma dead_summary es es' :
  aj_alive (reg_run reg_init es) = false →
  aj_alive (reg_run reg_init (es ++ es')) = false ∧
  started (reg_run reg_init (es ++ es')) = started (reg_run reg_init es) ∧
  ∀ i c a, calls (reg_run reg_init (es ++ es')) !! i = Some (c, CSent a) →
    c_type c ∈ (started (reg_run reg_init es)).*1.
Proof.
  intros H. pose proof (dead_for_ever _ es' H) as (H1 & H2 & _). rewrite reg_run_app. split; [done|]. split; [done|].
  intros i c a E. apply (dead_no_new_type es es' c i a H). by rewrite reg_run_app.
Qed.

(** Each call ends after a few steps of its own. *)
Definition steps_left (x : start_state) : nat :=
  match x with
  | SFirst => 7 | SFirstHeld => 6 | SCreate => 5 | SCreated _ => 4 | SWriting _ => 3 | SSecond => 2 | SSecondHeld => 1
  | GFirst => 2 | GHeld => 1 | SReturned _ | SPanicked | GReturned _ => 0
  end.
Lemma left_step s e i x :
  threads s !! i = Some x →
  ∃ y, threads (boot_step s e) !! i = Some y ∧
    (steps_left y ≤ steps_left x - match e with BStep k => if decide (k = i) then 1 else 0 | _ => 0 end)%nat.
Proof.
  intros E. destruct e as [| |k]; cbn [boot_step threads].
  - exists x. split; [by apply lookup_app_l_Some|lia].
  - exists x. split; [by apply lookup_app_l_Some|lia].
  - destruct (decide (k = i)) as [->|Hk].
    + rewrite E. unfold set_thread, take_read, drop_read.
      destruct x; cbn [threads];
        repeat (match goal with |- context [if ?b then _ else _] => destruct b end); cbn [threads];
        repeat (match goal with |- context [match slot s with _ => _ end] => destruct (slot s) end);
        first [rewrite list_lookup_insert by (by eapply lookup_lt_Some)|rewrite E]; eexists; (split; [done|cbn; lia]).
    + exists x. split; [|lia].
      destruct (threads s !! k) as [[]|]; unfold set_thread, take_read, drop_read; cbn [threads];
        repeat (match goal with |- context [if ?b then _ else _] => destruct b end); cbn [threads];
        rewrite ?list_lookup_insert_ne by done; done.
Qed.
Lemma left_run es s i x :
  threads s !! i = Some x →
  ∃ y, threads (boot_run s es) !! i = Some y ∧ (steps_left y ≤ steps_left x - steps_of i es)%nat.
Proof.
  revert s x; induction es as [|e es IH]; intros s x E; [exists x; split; [done|cbn; lia]|].
  rewrite boot_run_cons. destruct (left_step s e i x E) as (y & Ey & Hy).
  destruct (IH _ _ Ey) as (z & Ez & Hz). exists z. split; [done|].
  unfold steps_of in *. cbn [List.filter]. destruct e as [| |k]; [lia|lia|].
  destruct (decide (k = i)), (Nat.eqb_spec k i); cbn [length]; try done; lia.
Qed.
Lemma calls_end es es' i :
  is_Some (threads (boot_run boot_init es) !! i) → (7 ≤ steps_of i es')%nat →
  ∃ x, threads (boot_run boot_init (es ++ es')) !! i = Some x ∧ ended_call x = true.
Proof.
  intros [x E] Hs. rewrite boot_run_app. destruct (left_run es' _ i x E) as (y & Ey & Hy).
  exists y. split; [done|]. assert (steps_left x ≤ 7)%nat by (destruct x; cbn; lia).
  destruct y; cbn in Hy; try lia; done.
Qed.
Lemma writer_panics s i j a :
  writer s = false → readers s = 0%nat → i ≠ j →
  threads s !! i = Some SSecond → threads s !! j = Some (SCreated a) →
  let s' := boot_run s [BStep j; BStep i] in
  threads s' !! i = Some SPanicked ∧ threads s' !! j = Some (SWriting a).
Proof.
  intros Hw Hr Hij Ei Ej. cbv zeta. rewrite boot_run_cons. cbn [boot_step]. rewrite Ej, Hw, Hr. cbn [orb negb Nat.eqb].
  rewrite boot_run_cons. cbn [boot_step threads writer]. rewrite list_lookup_insert_ne by done. rewrite Ei.
  cbn [boot_run fold_left set_thread threads].
  rewrite list_lookup_insert by (rewrite insert_length; by eapply lookup_lt_Some).
  rewrite list_lookup_insert_ne by done. rewrite list_lookup_insert by (by eapply lookup_lt_Some). done.
Qed.

(** *** The lock *)
Lemma count_insert (P : start_state → bool) l i x y :
  l !! i = Some x →
  (length (List.filter P (<[i := y]> l)) + Nat.b2n (P x) = length (List.filter P l) + Nat.b2n (P y))%nat.
Proof.
  revert i. induction l as [|z l IH]; intros [|i] E; cbn in E; [done..| |].
  - injection E as ->. cbn. destruct (P x), (P y); cbn; lia.
  - specialize (IH i E). change (<[S i := y]> (z :: l)) with (z :: <[i := y]> l). cbn [List.filter]. destruct (P z); cbn [length]; lia.
Qed.
Record locked (s : boot) : Prop := {
  lk_readers : readers s = how_many reading s;
  lk_writer : Nat.b2n (writer s) = how_many writing s;
  lk_one : writer s = true → readers s = 0%nat;
}.
Lemma locked_step s e : locked s → locked (boot_step s e).
Proof.
  intros [H1 H2 H3]. destruct e as [| |i]; cbn [boot_step].
  1,2: split; unfold how_many in *; cbn; try done; by rewrite List.filter_app, app_length, ?H1, ?H2; cbn; rewrite Nat.add_0_r.
  destruct (threads s !! i) as [x|] eqn:E; [|by split].
  assert (∀ y, (how_many reading (set_thread s i y) + Nat.b2n (reading x) = readers s + Nat.b2n (reading y))%nat) as Hr.
  { intros y. rewrite H1. by apply count_insert. }
  assert (∀ y, (how_many writing (set_thread s i y) + Nat.b2n (writing x) = Nat.b2n (writer s) + Nat.b2n (writing y))%nat) as Hw.
  { intros y. rewrite H2. by apply count_insert. }
  assert (reading x = true → 1 <= readers s)%nat as Hp.
  { intros Hx. specialize (Hr SFirst). rewrite Hx in Hr. cbn in Hr. lia. }
  unfold how_many, set_thread in *. cbn [threads] in *.
  destruct (writer s) eqn:Ew, (slot s); destruct x; unfold take_read, drop_read; cbn in *;
    repeat (match goal with |- context [if ?b then _ else _] => destruct b eqn:? end); try (by split; rewrite ?Ew);
    split; unfold how_many; cbn -[List.filter];
    try (match goal with
         | |- _ = length (List.filter reading (<[i := ?y]> _)) => specialize (Hr y); cbn in Hr
         | |- _ = length (List.filter writing (<[i := ?y]> _)) => specialize (Hw y); cbn in Hw
         end); rewrite ?Ew; try done; try lia.
  all: try (intros _; destruct (Nat.eqb_spec (readers s) 0); done).
  all: try (intros Hc; specialize (H3 eq_refl); specialize (Hp eq_refl); lia).
  all: cbn [Nat.b2n]; lia.
Qed.
Lemma locked_run es : locked (boot_run boot_init es).
Proof.
  enough (∀ s, locked s → locked (boot_run s es)) as H by (by apply H; split).
  induction es as [|e es IH]; intros s Hs; [done|]. rewrite boot_run_cons. by apply IH, locked_step.
Qed.
Lemma lock es :
  let s := boot_run boot_init es in
  readers s = how_many reading s ∧ (how_many writing s <= 1)%nat ∧ (writer s = true ↔ how_many writing s = 1%nat) ∧
  (how_many writing s = 1%nat → how_many reading s = 0%nat).
Proof.
  cbv zeta. destruct (locked_run es) as [H1 H2 H3]. rewrite <- H2, <- H1. destruct (writer _); cbn; intuition lia.
Qed.
Definition with_before (ts : list start_state) (s : boot) : boot :=
  Boot (slot s) (readers s) (writer s) (actors s) (ts ++ threads s).
Lemma last_step ts s x :
  threads s = [x] →
  boot_step (with_before ts s) (BStep (length ts)) = with_before ts (boot_step s (BStep 0)) ∧
  ∃ y, threads (boot_step s (BStep 0)) = [y].
Proof.
  intros Hs. unfold with_before. cbn [boot_step threads]. rewrite Hs.
  assert (∀ x y, <[length ts := y]> (ts ++ [x]) = ts ++ [y]) as Hi
    by (intros; by rewrite insert_app_r_alt, Nat.sub_diag by lia).
  assert ((ts ++ [x]) !! length ts = Some x) as Hl by (by apply list_lookup_middle). rewrite Hl. cbn [lookup list_lookup].
  destruct s as [sl rd wr ac ts0]. cbn in Hs. subst ts0.
  destruct x, wr, sl; unfold set_thread, take_read, drop_read; cbn [slot readers writer actors threads orb]; try rewrite Hi; try (split; [done|by eexists]).
  all: destruct (negb _); cbn [slot readers writer actors threads]; rewrite ?Hi; (split; [done|by eexists]).
Qed.
Lemma quiet_start es :
  let s := boot_run boot_init es in
  let i := length (threads s) in
  let s' := boot_run s (BStart :: repeat (BStep i) 7) in
  Forall (λ x, ended_call x = true) (threads s) →
  ∃ a, threads s' = threads s ++ [SReturned a] ∧ slot s' = Some a ∧
    match slot s with Some b => a = b ∧ actors s' = actors s | None => actors s' = S (actors s) end.
Proof.
  cbv zeta. destruct (locked_run es) as [H1 H2 H3]. destruct (boot_run boot_init es) as [sl rd wr ac ts].
  cbn [threads slot actors] in *. intros Ht.
  assert (∀ P, (∀ x, ended_call x = true → P x = false) → length (List.filter P ts) = 0%nat) as Hz.
  { intros P HP. clear H1 H2 H3. induction Ht as [|x ts Hx Ht IH]; [done|]. cbn. by rewrite HP. }
  unfold how_many in *. cbn [threads readers writer] in *. rewrite Hz in H1 by (intros x; by destruct x). rewrite Hz in H2 by (intros x; by destruct x). subst rd.
  destruct wr; [done|]. clear H2 H3 Ht Hz.
  assert (∀ s x n, threads s = [x] →
    boot_run (with_before ts s) (repeat (BStep (length ts)) n) = with_before ts (boot_run s (repeat (BStep 0) n))) as Hr.
  { intros s x n. revert s x. induction n as [|n IH]; intros s x Hs; [done|]. cbn [repeat]. rewrite !boot_run_cons.
    destruct (last_step ts s x Hs) as (E & y & Hy). rewrite E. by eapply IH. }
  rewrite boot_run_cons. change (boot_step _ BStart) with (with_before ts (Boot sl 0 false ac [SFirst])).
  rewrite (Hr _ SFirst) by done. destruct sl as [b|]; [by exists b|by exists ac].
Qed.

(** *** No call of run hangs *)
Record winv (s : reg) : Prop := {
  wi_dead : aj_alive s = false → inbox s = [];
  wi_wait : ∀ i c, calls s !! i = Some (c, CWait) → MInit i ∈ inbox s;
}.
Lemma winv_panic s : winv (aj_panic s).
Proof.
  split; [done|]. intros i c E. cbn [aj_panic calls] in E. rewrite list_lookup_fmap in E.
  destruct (calls s !! i) as [[c' x]|]; [|done]. cbn [fmap option_fmap option_map] in E. injection E as E.
  destruct x; cbn in E; try destruct (c_spawned c'); discriminate E.
Qed.
Lemma winv_step s e : winv s → winv (reg_step s e).
Proof.
  intros [H1 H2]. destruct e as [ty n|ty n|i|]; cbn [reg_step].
  - split; cbn [add_call calls inbox aj_alive]; [done|]. intros i c E. apply lookup_app_Some in E as [E|[_ E]]; [by eapply H2|].
    destruct (_ - _)%nat; cbn in E; [by injection E|done].
  - destruct (aj_alive s) eqn:Ea; [|by split; rewrite ?Ea]. split; cbn [calls inbox aj_alive]; [done|].
    intros i c E. apply elem_of_app. left. by eapply H2.
  - destruct (calls s !! i) as [[c x]|] eqn:E; [|by split].
    assert (∀ x', x' ≠ CWait → winv (set_call s i c x')) as Hs.
    { intros x' Hx. split; cbn [set_call calls inbox aj_alive]; [done|]. intros k c' E'.
      apply list_lookup_insert_Some in E' as [(_ & [=] & _)|(_ & E')]; [done|by eapply H2]. }
    destruct x; try (by split); try by apply Hs.
    + destruct (by_type s !! c_type c); by apply Hs.
    + destruct (aj_alive s) eqn:Ea; [|by apply Hs]. split; cbn [calls inbox aj_alive]; [done|]. intros k c' E'.
      apply list_lookup_insert_Some in E' as [(-> & _)|(_ & E')]; apply elem_of_app; [right; left|left; by eapply H2].
  - destruct (aj_alive s) eqn:Ea; [|by split; rewrite ?Ea]. destruct (inbox s) as [|m rest] eqn:Ei; [split; rewrite ?Ei; [done|exact H2]|].
    destruct m as [i|ty n].
    + destruct (calls s !! i) as [[c x]|] eqn:E.
      2:{ split; cbn [calls inbox aj_alive]; [done|]. intros k c' E'. specialize (H2 k c' E').
          apply elem_of_cons in H2 as [[= ->]|H2]; [congruence|done]. }
      assert (x ≠ CWait → winv (Reg (by_type s) (by_name s) (started s) true rest (calls s))) as Ho.
      { intros Hx. split; cbn [calls inbox aj_alive]; [done|]. intros k c' E'. specialize (H2 k c' E').
        apply elem_of_cons in H2 as [[= ->]|H2]; [congruence|done]. }
      destruct x; try (by apply Ho). unfold register. cbn [by_name by_type].
      destruct (by_name s !! c_name c); [apply winv_panic|]. destruct (by_type s !! c_type c); [apply winv_panic|].
      split; cbn [calls inbox aj_alive]; [done|]. intros k c' E'.
      apply list_lookup_insert_Some in E' as [(_ & [=] & _)|(Hne & E')]. specialize (H2 k c' E').
      apply elem_of_cons in H2 as [[= ->]|H2]; done.
    + split; cbn [add_call calls inbox aj_alive]; [done|]. intros k c' E'. apply lookup_app_Some in E' as [E'|[_ E']].
      * specialize (H2 k c' E'). apply elem_of_cons in H2 as [|H2]; done.
      * destruct (_ - _)%nat; cbn in E'; [by injection E'|done].
Qed.
Lemma winv_run s es : winv s → winv (reg_run s es).
Proof. revert s. induction es as [|e es IH]; intros s H; [done|]. rewrite reg_run_cons. by apply IH, winv_step. Qed.
Lemma winv_init : winv reg_init.
Proof. split; [done|]. intros i c E. by destruct i. Qed.
Lemma waits_for_message es i c :
  let s := reg_run reg_init es in
  calls s !! i = Some (c, CWait) → aj_alive s = true ∧ MInit i ∈ inbox s.
Proof.
  cbv zeta. destruct (winv_run _ es winv_init) as [H1 H2]. intros E. specialize (H2 _ _ E). split; [|done].
  destruct (aj_alive _); [done|]. rewrite H1 in H2 by done. by apply elem_of_nil in H2.
Qed.

Lemma lose_final c x : final x = true → lose (c, x) = (c, x).
Proof. destruct x; try done. intros _. cbn. by destruct (c_spawned c). Qed.
Lemma final_stays s es i c x :
  calls s !! i = Some (c, x) → final x = true → calls (reg_run s es) !! i = Some (c, x).
Proof.
  intros E Hf. revert s E. induction es as [|e es IH]; intros s E; [done|]. rewrite reg_run_cons. apply IH.
  assert (∀ k c' y y', calls s !! k = Some (c', y) → final y = false →
    <[k := (c', y')]> (calls s) !! i = Some (c, x)) as Hi.
  { intros k c' y y' E' Hy. rewrite list_lookup_insert_ne; [done|]. intros ->. rewrite E in E'. injection E' as <- <-. congruence. }
  assert (∀ p, (calls s ++ [p]) !! i = Some (c, x)) as Ha by (intros; by apply lookup_app_l_Some).
  destruct e as [ty n|ty n|k|]; cbn [reg_step].
  - apply Ha.
  - by destruct (aj_alive s).
  - destruct (calls s !! k) as [[c' y]|] eqn:E'; [|done]. destruct y; try done; cbn [set_call calls].
    + destruct (by_type s !! c_type c'); cbn [set_call calls]; by eapply Hi.
    + destruct (aj_alive s); cbn [set_call calls]; by eapply Hi.
    + by eapply Hi.
  - destruct (aj_alive s); [|done]. destruct (inbox s) as [|[k|ty n] rest]; [done| |apply Ha].
    destruct (calls s !! k) as [[c' y]|] eqn:E'; [|done]. destruct y; try done. unfold register. cbn [by_name by_type].
    assert (calls (aj_panic (Reg (by_type s) (by_name s) (started s) true rest (calls s))) !! i = Some (c, x)) as Hp.
    { cbn [aj_panic calls]. rewrite list_lookup_fmap, E. cbn [fmap option_fmap option_map]. by rewrite lose_final. }
    destruct (by_name s !! c_name c'); [done|]. destruct (by_type s !! c_type c'); [done|]. by eapply Hi.
Qed.

Definition todo2 (p : call * call_state) : nat :=
  match p.2 with CLook => 5 | CInit => 4 | CWait => 2 | CGot _ => 1 | _ => 0 end.
Definition waiting2 (m : aj_msg) : nat := match m with MJust _ _ => 6 | MInit _ => 1 end.
Definition left2 (s : reg) : nat := (sum_of todo2 (calls s) + sum_of waiting2 (inbox s))%nat.
Lemma sum_insert2 (l : list (call * call_state)) i p q :
  l !! i = Some p → (sum_of todo2 (<[i := q]> l) + todo2 p = sum_of todo2 l + todo2 q)%nat.
Proof.
  revert i. induction l as [|r l IH]; intros [|i] E; [done|done| |].
  - injection E as ->. cbn [sum_of insert list_insert]. lia.
  - specialize (IH i E). change (<[S i := q]> (r :: l)) with (r :: <[i := q]> l). cbn [sum_of]. lia.
Qed.
Lemma lose_todo p : (todo2 (lose p) <= todo2 p)%nat.
Proof. destruct p as [c []]; cbn; destruct (c_spawned c); cbn; lia. Qed.
Lemma lose_sum l : (sum_of todo2 (lose <$> l) <= sum_of todo2 l)%nat.
Proof. induction l as [|p l IH]; [done|]. change (lose <$> p :: l) with (lose p :: (lose <$> l)). cbn [sum_of]. pose proof (lose_todo p). lia. Qed.
Lemma all_end s : winv s → ∃ es', Forall internal es' ∧ ∀ i c x, calls (reg_run s es') !! i = Some (c, x) → final x = true.
Proof.
  remember (left2 s) as n eqn:En. revert s En. induction n as [n IH] using lt_wf_ind. intros s -> Hw.
  assert ((∀ i c x, calls s !! i = Some (c, x) → final x = true) ∨
          ∃ e, internal e ∧ (left2 (reg_step s e) < left2 s)%nat) as [H|(e & Hi & Hlt)].
  2:{ by exists []. }
  2:{ destruct (IH _ Hlt (reg_step s e) eq_refl (winv_step s e Hw)) as (es' & H1 & H2).
      exists (e :: es'). split; [by constructor|done]. }
  destruct Hw as [H1 H2]. destruct (inbox s) as [|m rest] eqn:Ei.
  - destruct (decide (Exists (λ p, final p.2 = false) (calls s))) as [([c x] & Hi & Hp)%list.Exists_exists|Hno].
    + right. apply elem_of_list_lookup in Hi as [i E]. exists (RStep i). split; [done|]. cbn [reg_step snd] in *. rewrite E.
      assert (∀ y, (todo2 (c, y) < todo2 (c, x))%nat → (left2 (set_call s i c y) < left2 s)%nat) as Hs.
      { intros y Hy. unfold left2. cbn [set_call calls inbox]. pose proof (sum_insert2 _ _ _ (c, y) E). lia. }
      destruct x; try done.
      * destruct (by_type s !! c_type c); apply Hs; cbn; lia.
      * destruct (aj_alive s); [|apply Hs; cbn; lia]. unfold left2. cbn [calls inbox]. rewrite Ei.
        pose proof (sum_insert2 _ _ _ (c, CWait) E) as Hx. cbn [todo2 snd] in Hx. cbn [app sum_of waiting2]. lia.
      * specialize (H2 _ _ E). by apply elem_of_nil in H2.
      * apply Hs. cbn. lia.
    + left. intros i c x E. destruct (final x) eqn:Ex; [done|]. exfalso. apply Hno, list.Exists_exists.
      exists (c, x). split; [by eapply elem_of_list_lookup_2|done].
  - right. exists RHandle. split; [done|]. cbn [reg_step]. destruct (aj_alive s); [|by specialize (H1 eq_refl)]. rewrite Ei.
    destruct m as [i|ty n].
    + assert ((left2 (Reg (by_type s) (by_name s) (started s) true rest (calls s)) < left2 s)%nat) as Hs.
      { unfold left2. cbn [calls inbox]. rewrite Ei. cbn [sum_of waiting2]. lia. }
      destruct (calls s !! i) as [[c x]|] eqn:E; [|done]. destruct x; try done. unfold register. cbn [by_name by_type].
      assert ((left2 (aj_panic (Reg (by_type s) (by_name s) (started s) true rest (calls s))) < left2 s)%nat) as Hp.
      { unfold left2. cbn [aj_panic calls inbox]. rewrite Ei. cbn [sum_of waiting2]. pose proof (lose_sum (calls s)). lia. }
      destruct (by_name s !! c_name c); [done|]. destruct (by_type s !! c_type c); [done|].
      unfold left2. cbn [calls inbox started]. rewrite Ei. pose proof (sum_insert2 _ _ _ (c, CGot (length (started s))) E) as Hx.
      cbn [todo2 snd] in Hx. cbn [sum_of waiting2]. lia.
    + unfold left2. cbn [add_call calls inbox]. rewrite Ei, sum_snoc. cbn [sum_of waiting2 todo2 snd]. lia.
Qed.
Lemma run_ends es :
  ∃ es', Forall internal es' ∧
    ∀ i c x, calls (reg_run reg_init (es ++ es')) !! i = Some (c, x) → final x = true.
Proof. destruct (all_end (reg_run reg_init es)) as (es' & H1 & H2); [apply winv_run, winv_init|]. exists es'. by rewrite reg_run_app. Qed.
