(** Processes whose steps overlap: a rely/guarantee condition on programs, and what follows for races. *)
From Verif Require Import Spec SpecRace BackendFacts WorldFacts.

Section rg.
  Context {W : Type} (h : handler W).
  (** [I] holds of the storage between calls, [le] relates it to what it is later on: every call of every
      process respects both. *)
  Context (I : W → Prop) (le : W → W → Prop).
  Fixpoint rg {A} (w0 : W) (p : prog A) (Q : W → A → Prop) : Prop :=
    match p with
    | Ret a => Q w0 a
    | Panic | Diverge => True
    | @Eff _ X e f => ∀ w, le w0 w → I w →
        (le w (h X e w).1 ∧ I (h X e w).1) ∧ rg (h X e w).1 (f (h X e w).2) Q ∧
        match fail_ans e with
        | Some bad => rg w (f bad) Q ∧ rg (h X e w).1 (f bad) Q
        | None => True
        end
    end.
  Context (le_trans : ∀ w1 w2 w3, le w1 w2 → le w2 w3 → le w1 w3).
  Lemma rg_le {A} w w' (p : prog A) (Q : W → A → Prop) :
    (∀ w1 w2 a, le w1 w2 → Q w1 a → Q w2 a) → le w w' → rg w p Q → rg w' p Q.
  Proof using le_trans. intros HQ Hl. destruct p as [a| | |X e f]; cbn; eauto. Qed.
  Lemma rg_mono {A} w (p : prog A) (Q Q' : W → A → Prop) :
    (∀ w a, Q w a → Q' w a) → rg w p Q → rg w p Q'.
  Proof.
    intros HQ. revert w. induction p as [a| | |X e f IH]; intros w; cbn; auto. intros H w1 Hl HI.
    destruct (H w1 Hl HI) as (H1 & H2 & H3). split; [done|]. split; [by apply IH|].
    destruct (fail_ans e); [|done]. destruct H3. split; by apply IH.
  Qed.
  Lemma rg_bind {A B} w (p : prog A) (f : A → prog B) (Q : W → B → Prop) :
    rg w p (λ w' a, rg w' (f a) Q) → rg w (bind p f) Q.
  Proof.
    revert w. induction p as [a| | |X e g IH]; intros w; cbn; auto. intros H w1 Hl HI.
    destruct (H w1 Hl HI) as (H1 & H2 & H3). split; [done|]. split; [by apply IH|].
    destruct (fail_ans e); [|done]. destruct H3. split; by apply IH.
  Qed.
End rg.

Section race.
  Context {M : Type} `{SM : Serde M}.
  Context (prof : nat → profile).
  Context (sched : nat → string → option (time → option time)).
  Context (name : nat → string).
  Context {W : Type} (h : nat → handler W).
  Context (I : W → Prop) (le : W → W → Prop).
  Context (le_refl : ∀ w, le w w) (le_trans : ∀ w1 w2 w3, le w1 w2 → le w2 w3 → le w1 w3).
  (** What is known of the tasks, executions and answers of process i. *)
  Context (TP : nat → W → list (task M) → Prop) (RP : nat → W → job M → Prop).
  Context (AP : nat → W → event M → response M → Prop).
  Context (TP_le : ∀ i w w' ts, le w w' → TP i w ts → TP i w' ts).
  Context (TP_nil : ∀ i w, TP i w []).
  Context (RP_le : ∀ i w w' j, le w w' → RP i w j → RP i w' j).
  Context (AP_le : ∀ i w w' e a, le w w' → AP i w e a → AP i w' e a).
  Notation rstep := (race_step prof sched name h).
  Implicit Types r : race M W.

  Definition post (i : nat) (e : event M) (w : W) (res : step_result) : Prop :=
    TP i w res.1.1.2 ∧ Forall (RP i w) res.1.2 ∧ AP i w e res.2.
  Definition proc_ok (w : W) (i : nat) (p : proc M) : Prop :=
    TP i w (p_tasks p) ∧
    match p_now p with Some (e, c) => rg (h i) I le w c (post i e) | None => True end.
  Definition rinv r : Prop :=
    I (r_world r) ∧ (∀ i p, r_procs r !! i = Some p → proc_ok (r_world r) i p) ∧
    Forall (λ x, RP x.1 (r_world r) x.2) (r_runs r) ∧
    Forall (λ x, AP x.1.1 (r_world r) x.1.2 x.2) (r_answers r).
  (** What must hold of a step that begins. *)
  Definition begin_ok r (x : race_event M) : Prop :=
    match x with
    | RBegin i e n => ∀ p, r_procs r !! i = Some p → TP i (r_world r) (p_tasks p) →
        rg (h i) I le (r_world r) (step_of prof sched name n i (p_cfg p) (p_tasks p) e) (post i e)
    | _ => True
    end.

  Lemma post_le i e w w' res : le w w' → post i e w res → post i e w' res.
  Proof using TP_le RP_le AP_le.
    intros Hl (H1 & H2 & H3). split; [by eapply TP_le|]. split; [|by eapply AP_le].
    eapply list.Forall_impl; [exact H2|]. intros j. by apply RP_le.
  Qed.
  Lemma proc_ok_le w w' i p : le w w' → proc_ok w i p → proc_ok w' i p.
  Proof using le_trans TP_le RP_le AP_le.
    intros Hl [H1 H2]. split; [by eapply TP_le|]. destruct (p_now p) as [[e c]|]; [|done].
    eapply rg_le; [done| |done|exact H2]. intros w1 w2 a. apply post_le.
  Qed.
  Lemma gone_ok w i p : proc_ok w i (gone p).
  Proof using TP_nil. split; [apply TP_nil|done]. Qed.
  Lemma rinv_put r i p : rinv r → proc_ok (r_world r) i p → rinv (put r i p).
  Proof using.
    intros (H1 & H2 & H3) Hp. split; [done|]. split; [|done]. intros i' p'. cbn.
    intros [(<- & <- & _)|[_ H]]%list_lookup_insert_Some; [done|by apply H2].
  Qed.
  Lemma rinv_call r i f p : rinv r → r_procs r !! i = Some p → rinv (race_call h r i f p).
  Proof using le_refl le_trans TP_le TP_nil RP_le AP_le.
    intros Hr Hp. pose proof Hr as (H1 & H2 & H3 & H4). pose proof (H2 i p Hp) as [Ht Hn].
    unfold race_call. destruct (p_now p) as [[e c]|] eqn:En; [|done].
    destruct c as [[[[c ts] js] a]| | |X e' k].
    - destruct Hn as (N1 & N2 & N3). cbn in N1, N2, N3. split; [done|]. split; [|split]; cbn.
      + intros i' p'. intros [(<- & <- & _)|[_ H]]%list_lookup_insert_Some; [by split|by apply H2].
      + apply Forall_app. split; [done|]. apply Forall_map. eapply list.Forall_impl; [exact N2|]. done.
      + apply Forall_app. split; [done|]. by repeat constructor.
    - apply rinv_put; [done|apply gone_ok].
    - apply rinv_put; [done|apply gone_ok].
    - cbn in Hn. destruct (Hn _ (le_refl _) H1) as ((N1 & N2) & N3 & N4).
      assert (∀ w' x, I w' → le (r_world r) w' → rg (h i) I le w' (k x) (post i e) →
        rinv (Race w' (<[i := Proc (p_cfg p) (p_tasks p) (p_alive p) (Some (e, k x))]> (r_procs r)) (r_runs r) (r_answers r)))
        as Hgo.
      { intros w' x A1 A2 A3. split; [done|]. split; [|split]; cbn.
        - intros i' p'. intros [(<- & <- & _)|[_ H]]%list_lookup_insert_Some.
          + split; [by eapply TP_le|done].
          + eapply proc_ok_le; [exact A2|]. by apply H2.
        - eapply list.Forall_impl; [exact H3|]. intros [i' j]. by apply RP_le.
        - eapply list.Forall_impl; [exact H4|]. intros [[i' e''] a]. by apply AP_le. }
      unfold call_h. destruct (fail_ans e') as [bad|]; [destruct N4 as [N4 N5]; destruct f|].
      + destruct (h i X e' (r_world r)) as [w' x]. by apply Hgo.
      + by apply Hgo.
      + by apply Hgo.
      + destruct (h i X e' (r_world r)) as [w' x]. by apply Hgo.
  Qed.
  Lemma rinv_step r x : rinv r → begin_ok r x → rinv (rstep r x).
  Proof using le_refl le_trans TP_le TP_nil RP_le AP_le.
    intros Hr Hx. destruct x as [i e n|i f|i]; cbn [race_step]; destruct (r_procs r !! i) as [p|] eqn:Ep; try done.
    - apply rinv_put; [done|]. pose proof Hr as (_ & H2 & _). destruct (H2 i p Ep) as [Ht Hn].
      unfold race_begin. destruct (p_now p) as [[e' c]|] eqn:En; [split; [done|by rewrite En]|].
      specialize (Hx p Ep Ht).
      destruct (p_alive p); destruct e; first [apply gone_ok|split; [exact Ht|]; first [exact Hx|by rewrite En]].
    - by apply rinv_call.
    - apply rinv_put; [done|apply gone_ok].
  Qed.
End race.

Section along.
  Context {M : Type} `{SM : Serde M}.
  Context (prof : nat → profile).
  Context (sched : nat → string → option (time → option time)).
  Context (name : nat → string).
  Context (clock : nat → nat → time).
  Notation ralong := (ralong prof sched name clock).
  Notation rstep := (race_step prof sched name (λ i, mem_h (clock i))).
  Implicit Types r : race M world.
  Implicit Types Q : race M world → race_event M → Prop.
  Lemma ralong_inv (Inv : race M world → Prop) Q r xs :
    (∀ r x, Inv r → Q r x → Inv (rstep r x)) → Inv r → ralong Q r xs →
    Inv (race_run prof sched name (λ i, mem_h (clock i)) r xs).
  Proof.
    intros H. unfold race_run. revert r. induction xs as [|x xs IH]; intros r Hr; cbn; [done|]. intros [H1 H2]. auto.
  Qed.
  Lemma ralong_forall (P : race_event M → Prop) Q r xs :
    (∀ r x, P x → Q r x) → Forall P xs → ralong Q r xs.
  Proof. intros H Hes. revert r. induction Hes as [|x xs He Hes IH]; intros r; cbn; auto. Qed.
  Lemma init_idle {W} (w : W) n i (p : proc M) :
    r_procs (race_init w n) !! i = Some p → p = Proc wq_config_default [] false None.
  Proof. cbn. intros H. apply elem_of_list_lookup_2, elem_of_list_In in H. by eapply repeat_spec. Qed.
End along.
