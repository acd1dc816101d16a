(** Instances of the invariants of RaceValue.v. *)
From Verif Require Import Spec SpecRace JsonFacts BackendFacts WorldFacts MicroFacts PickFacts FaultFacts ValueFacts ValueProps RaceFacts RaceValue.

(** Invariants that do not depend on the clock need no new proof. *)
Lemma closed_any {M} `{SM : Serde M} prof sched clock (G : nat → job M → Prop) :
  (∀ k k' j, G k j → G k' j) → (∀ clk, closed prof sched clk G G) → rclosed prof sched clock G G.
Proof.
  intros HG H. pose (clk k t := λ n, if (n =? k)%nat then clock k else t).
  assert (∀ k t, clk k t k = clock k) as E1 by (intros; unfold clk; by rewrite Nat.eqb_refl).
  assert (∀ k t, clk k t (S k) = t) as E2.
  { intros. unfold clk. destruct (Nat.eqb_spec (S k) k); [lia|done]. }
  split.
  - apply (c_mono _ _ _ _ _ (H clock)).
  - apply (c_mono _ _ _ _ _ (H clock)).
  - done.
  - apply (c_norm _ _ _ _ _ (H clock)).
  - apply (c_enq _ _ _ _ _ (H clock)).
  - intros k k' j Hj Hr Hk. eapply HG.
    pose proof (c_prc _ _ _ _ _ (H (clk k (clock k'))) k j Hj) as Hp. rewrite E1, E2 in Hp. by apply Hp.
  - apply (c_bump _ _ _ _ _ (H clock)).
  - apply (c_fin _ _ _ _ _ (H clock)).
  - apply (c_fai _ _ _ _ _ (H clock)).
  - apply (c_can _ _ _ _ _ (H clock)).
  - intros k k' j e slot n cc aft up n' Hj Hk Et Es Ea En Hm He. eapply HG.
    pose proof (c_cron _ _ _ _ _ (H (clk k (clock k'))) k j e slot n cc aft up n' Hj Et Es) as Hc.
    rewrite E1, E2 in Hc. by apply Hc.
  - apply (c_retry _ _ _ _ _ (H clock)).
Qed.

Section props.
  Context {M : Type} `{SM : Serde M} {SO : SerdeOk M}.
  Context (prof : nat → profile).
  Context (sched : nat → string → option (time → option time)).
  Context (name : nat → string).
  Context (clock : nat → nat → time).
  Notation race_after := (race_after prof sched name clock).
  Notation ralong := (ralong prof sched name clock).
  Notation init n := (race_init world_empty n : race M world).
  Implicit Types r : race M world.
  Implicit Types x : race_event M.
  Implicit Types xs : list (race_event M).

  (** The condition on a begun task step, for invariants of the job a task has. *)
  Lemma rcond_of (G : nat → job M → Prop) (R : nat → nat → job M → Prop) r x :
    vinv clock G R r →
    (∀ e, begun x = Some e → match e with EvEnqueue j _ => Gs G (reads (r_world r)) j | _ => True end) →
    (∀ i k u n t, x = RBegin i (EvTask k u) n → has_task r i k t → R i (reads (r_world r)) (t_job t) →
       ∀ k', (reads (r_world r) <= k')%nat → task_ok G (R i) k' t u) →
    rcond G R r x.
  Proof.
    intros Hv H1 H2. destruct x as [i e n|i f|i]; try done. intros p Hp. specialize (H1 e eq_refl).
    destruct e as [| | | | | |k u| | | |]; try done. intros t Ht.
    assert (has_task r i k t) as Hh by by exists p. eapply H2; [done|done|]. by eapply vinv_task.
  Qed.

  (** *** Payloads *)
  Lemma race_payload (P : string → M → Prop) n xs :
    ralong (payload_race P) (init n) xs →
    let r := race_after n xs in
    (∀ id (j : job M), stored (r_world r) id = Some j → jid j = id ∧ P id (data j)) ∧
    (∀ i j, (i, j) ∈ r_runs r → P (jid j) (data j)) ∧
    (∀ i id j, (i, EvGet id, RJob (Some j)) ∈ r_answers r → jid j = id ∧ P id (data j)).
  Proof using SO.
    intros Ha. destruct (rinstance prof sched name clock (GP P) (λ _, GP P)) with (Q := payload_race P) (n := n) (xs := xs)
      as (H1 & H2 & H3); [..|done|].
    - intros i. apply closed_any; [done|]. intros clk. apply closed_payload.
    - intros r x Hv Hx. apply rcond_of; [done|..].
      + intros e He. destruct x as [i e' m| |]; try done. injection He as <-. destruct e'; try done. by left.
      + intros i k u m t -> Ht Hj k' Hk'. split; [intros Hp; by apply Hx|]. intros _ r0 r' o Er Eu.
        split; [exact Hj|]. intros t' _. exact Hj.
    - split; [|split].
      + intros id j Hj. destruct (H1 id j Hj) as [<- H]. done.
      + exact H2.
      + intros i id j Hj. destruct (H3 i id j Hj) as [<- H]. done.
  Qed.

  (** *** Unreadable payloads *)
  Lemma race_never_runs id n xs :
    Forall (λ x, match begun x with Some (EvEnqueue j _) => jid j = id → unreadable (data j) | _ => True end) xs →
    let r := race_after n xs in
    stored (M := M) (r_world r) id = None ∧ (∀ i j, (i, j) ∈ r_runs r → jid j ≠ id).
  Proof.
    intros Ha. destruct (rinstance prof sched name clock (GU id) (λ _, GU id)) with
      (Q := λ r x, match begun x with Some (EvEnqueue j _) => jid j = id → unreadable (data j) | _ => True end)
      (n := n) (xs := xs) as (H1 & H2 & _).
    - intros i. apply closed_any; [done|]. intros clk. apply closed_unreadable.
    - intros r x Hv Hx. apply rcond_of; [done|..].
      + intros e He. rewrite He in Hx. destruct e as [j c| | | | | | | | | |]; try done.
        destruct (decide (jid j = id)); [right; auto|by left].
      + intros i k u m t -> Ht Hj k' Hk'. split; [by intros _|]. intros _ r0 r' o Er Eu.
        split; [exact Hj|]. intros t' _. exact Hj.
    - eapply ralong_forall; [|exact Ha]. done.
    - split; [|exact H2].
      match goal with |- ?o = None => destruct o as [j|] eqn:E end; [|done]. by destruct (H1 id j E).
  Qed.

  (** *** Where jobs come from *)
  Definition GOr (xs : list (race_event M)) (k : nat) (j : job M) : Prop := ∃ j0, submitted_to xs j0 ∧ derived j0 j.
  Lemma closed_origin_r xs i : rclosed (prof i) (sched i) (clock i) (GOr xs) (GOr xs).
  Proof.
    apply closed_any; [done|]. intros clk.
    (* the submissions of the race, as a history *)
    pose (es := omap (λ x, match begun x with Some (EvEnqueue j c) => Some (EvEnqueue j c) | _ => None end) xs).
    assert (∀ j0, submitted_in es j0 ↔ submitted_to xs j0) as E.
    { intros j0. split.
      - intros (e & c & He & Hc). apply elem_of_list_omap in He as (x & Hx & He). exists x, c. split; [done|].
        destruct (begun x) as [[]|]; try done; injection He as <-; cbn in Hc; by rewrite Hc.
      - intros (x & c & Hx & He). exists (EvEnqueue j0 c), c. split; [|done]. apply elem_of_list_omap. exists x.
        split; [done|]. by rewrite He. }
    pose proof (closed_origin (prof i) (sched i) clk es) as H.
    assert (∀ k j, GO es k j ↔ GOr xs k j) as EG.
    { intros k j. unfold GO, GOr. split; intros (j0 & H1 & H2); exists j0; (split; [by apply E|done]). }
    destruct H. split; intros; rewrite <-?EG in *; eauto.
  Qed.
  Lemma race_origin n xs :
    Forall (λ x, match begun x with Some e => default_retry e | None => True end) xs →
    let r := race_after n xs in
    (∀ id (j : job M), stored (r_world r) id = Some j →
       jid j = id ∧ ∃ j0, submitted_to xs j0 ∧ derived j0 j) ∧
    (∀ i j, (i, j) ∈ r_runs r → ∃ j0, submitted_to xs j0 ∧ derived j0 j) ∧
    (∀ i id j, (i, EvGet id, RJob (Some j)) ∈ r_answers r →
       jid j = id ∧ ∃ j0, submitted_to xs j0 ∧ derived j0 j).
  Proof.
    intros Ha. apply (rinstance prof sched name clock (GOr xs) (λ _, GOr xs)) with
      (Q := λ r x, x ∈ xs ∧ match begun x with Some e => default_retry e | None => True end) (n := n) (xs := xs).
    - intros i. apply closed_origin_r.
    - intros r x Hv [Hin Hx]. apply rcond_of; [done|..].
      + intros e He. destruct e as [j c| | | | | | | | | |]; try done. left. exists j. split; [by exists x, c|].
        unfold derived. split; [done|]. split; [done|]. split.
        * destruct (jretry (ctx j)) as [[q m [d|d]]|]; cbn; try done; (split; [done|]; by left).
        * destruct (jtype (ctx j)) as [|a|ex sl q [k m [y|]]]; cbn; auto.
      + intros i k u m t -> Ht Hj k' Hk'. split; [by intros _|]. intros _ r0 r' o Er Eu.
        destruct Hx as [b Hb]. by rewrite Hb in Eu.
    - eapply ralong_forall; [|apply list.Forall_forall; intros x Hx; exact Hx].
      intros r x Hx. cbn. split; [done|]. rewrite list.Forall_forall in Ha. by apply Ha.
  Qed.

  (** *** Retry counters *)
  Lemma race_limits n xs :
    Forall (λ x, match begun x with
                 | Some e => default_retry e ∧ match e with EvEnqueue j _ => in_limit j | _ => True end
                 | None => True end) xs →
    let r := race_after n xs in
    (∀ id (j : job M), stored (r_world r) id = Some j → in_limit j) ∧
    (∀ i j, (i, j) ∈ r_runs r → in_limit j).
  Proof.
    intros Ha. destruct (rinstance prof sched name clock GL (λ _, GL)) with
      (Q := λ r x, match begun x with
                 | Some e => default_retry e ∧ match e with EvEnqueue j _ => in_limit j | _ => True end
                 | None => True end) (n := n) (xs := xs) as (H1 & H2 & _).
    - intros i. apply closed_any; [done|]. intros clk. apply closed_limit.
    - intros r x Hv Hx. apply rcond_of; [done|..].
      + intros e He. rewrite He in Hx. destruct Hx as [_ Hx]. destruct e; try done. by left.
      + intros i k u m t -> Ht Hj k' Hk'. split; [by intros _|]. intros _ r0 r' o Er Eu.
        destruct Hx as [[b Hb] _]. by rewrite Hb in Eu.
    - eapply ralong_forall; [|exact Ha]. done.
    - split; [|exact H2]. intros id j Hj. by apply (H1 id j).
  Qed.

  (** *** Executions are due *)
  Definition RDr (i k : nat) (j : job M) : Prop :=
    jstatus (ctx j) = Running ∧ ∃ k0 k1, (k0 < k1 < k)%nat ∧ due j (clock i k0) ∧ run_at (ctx j) = Some (ms_of (clock i k1)).
  Lemma closed_due_r i : rclosed (prof i) (sched i) (clock i) (λ _ _, True) (RDr i).
  Proof.
    split; try done.
    - intros k k' j Hk (H1 & k0 & k1 & H2 & H3). split; [done|]. exists k0, k1. split; [lia|done].
    - intros k k' j _ Hr Hk. split; [done|]. exists k, k'. split; [lia|]. split; [|done].
      unfold due. cbn. change (due j (clock i k)). by apply due_ready.
  Qed.
  Lemma race_due n xs :
    let r := race_after n xs in
    ∀ i j, (i, j) ∈ r_runs r → jstatus (ctx j) = Running ∧ picked_by clock r i j.
  Proof.
    destruct (rinstance prof sched name clock (λ _ _, True) RDr) with
      (Q := λ (r : race M world) (x : race_event M), True) (n := n) (xs := xs) as (_ & H2 & _).
    - intros i. apply closed_due_r.
    - intros r x Hv _. apply rcond_of; [done|..].
      + intros e He. destruct e; try done. by left.
      + intros i k u m t -> Ht Hj k' Hk'.
        assert (RDr i k' (t_job t)) as Hj' by by eapply (q_monoR _ _ _ _ _ (closed_due_r i)).
        split; [by intros _|]. intros _ r0 r' o Er Eu. split; [exact Hj'|done].
    - by eapply (ralong_forall _ _ _ _ (λ _, True)); [|apply Forall_true].
    - exact H2.
  Qed.
End props.

(** *** Time stamps, with one clock *)
Section stamps.
  Context {M : Type} `{SM : Serde M} {SO : SerdeOk M}.
  Context (prof : nat → profile).
  Context (sched : nat → string → option (time → option time)).
  Context (name : nat → string).
  Context (clk : nat → time).
  Context (Hclock : ∀ k k' : nat, (k <= k')%nat → clk k <= clk k').
  Lemma closed_stamps_r i : rclosed (prof i) (sched i) clk (GT (M := M) clk) (RT clk).
  Proof using Hclock.
    pose proof (closed_stamps (M := M) (prof i) (sched i) clk Hclock) as H.
    split.
    - apply (c_mono _ _ _ _ _ H).
    - apply (c_monoR _ _ _ _ _ H).
    - apply (c_RG _ _ _ _ _ H).
    - apply (c_norm _ _ _ _ _ H).
    - apply (c_enq _ _ _ _ _ H).
    - intros k k' j Hj Hr Hk. destruct k' as [|k1]; [lia|].
      split; [|done]. pose proof (ms_mono clk Hclock k (S k1)) as L1. pose proof (ms_mono clk Hclock (S k1) (S (S k1))) as L2.
      destruct Hj as (H1 & H2 & H3 & H4 & H5 & H6).
      split; [cbn; lia|]. split; [cbn; intros t Ht; specialize (H2 t Ht); lia|].
      split; [cbn; intros t [= <-]; lia|]. split; [intros t Ht; specialize (H4 t Ht); lia|].
      split; [intros t Ht; specialize (H5 t Ht); lia|]. cbn. eexists; split; [done|].
      intros e He. specialize (H2 e He). lia.
    - apply (c_bump _ _ _ _ _ H).
    - apply (c_fin _ _ _ _ _ H).
    - apply (c_fai _ _ _ _ _ H).
    - apply (c_can _ _ _ _ _ H).
    - intros k k' j e slot q cc aft up q' Hj Hk _ _ _ _ _ _. eapply (c_mono _ _ _ _ _ H k); [lia|]. by destruct Hj.
    - apply (c_retry _ _ _ _ _ H).
  Qed.
  Lemma race_stamps n xs :
    ralong prof sched name (λ _, clk) (stamped_race clk) (race_init world_empty n) xs →
    let r := race_after prof sched name (λ _, clk) n xs in
    let now := ms_of (clk (reads (r_world r))) in
    (∀ id (j : job M), stored (r_world r) id = Some j → stamps now j) ∧
    (∀ i j, (i, j) ∈ r_runs r → stamps now j).
  Proof using Hclock.
    intros Ha. destruct (rinstance prof sched name (λ _, clk) (GT clk) (λ _, RT clk)) with
      (Q := stamped_race (M := M) clk) (n := n) (xs := xs) as (H1 & H2 & _); [..|done|].
    - intros i. apply closed_stamps_r.
    - intros r x Hv Hx. eapply rcond_of; [done|..].
      + intros e He. unfold stamped_race in Hx. rewrite He in Hx. destruct e; try done. by left.
      + intros i k u m t -> Ht Hj k' Hk'.
        assert (RT clk k' (t_job t)) as Hj' by by eapply (q_monoR _ _ _ _ _ (closed_stamps_r i)).
        split; [by intros _|]. intros _ r0 r' o Er Eu. split; [exact Hj'|]. intros t' _. apply Hj'.
    - split; [intros id j Hj; by apply (H1 id j)|]. intros i j Hj. by apply (H2 i j).
  Qed.
End stamps.
