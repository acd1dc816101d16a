(** Instances of the value invariants of ValueFacts. *)
From Verif Require Import Spec SpecValue JsonFacts BackendFacts WorldFacts MicroFacts PickFacts FaultFacts ValueFacts.

Section props.
  Context {M : Type} `{SM : Serde M} {SO : SerdeOk M}.
  Context (prof : profile).
  Context (sched : string → option (time → option time)).
  Context (name : string).
  Context (clock : nat → time).
  Context (faults : nat → fault).
  Notation fafter := (fafter prof sched name clock faults).
  Notation along := (along prof sched name clock faults).
  Notation init := (sys_init (FWorld world_empty 0) : sys fworld M).
  Implicit Types k : nat.

  Lemma along_forall (P : event M → Prop) (Q : sys fworld M → event M → Prop) s es :
    (∀ s e, P e → Q s e) → Forall P es → along Q s es.
  Proof. intros H Hes. revert s. induction Hes as [|e es He Hes IH]; intros s; cbn; auto. Qed.

  (** The result of an instance, for a history. *)
  Lemma instance (G R : nat → job M → Prop) (Q : sys fworld M → event M → Prop) es :
    closed prof sched clock G R →
    (∀ s e, inv G R s → Q s e → event_ok G R s e) → along Q init es →
    let s := fafter es in
    (∀ id (j : job M), stored (fw (sw s)) id = Some j → jid j = id ∧ G (kof s) j) ∧
    Forall (λ t, R (kof s) (t_orig t) ∧ R (kof s) (t_job t)) (tasks s) ∧
    Forall (R (kof s)) (runs s).
  Proof.
    intros HC HQ Ha s.
    assert (inv G R s) as Hi.
    { apply inv_run; [done|apply inv_init|]. eapply along_inv; [done|exact HQ|apply inv_init|done]. }
    split; [|exact (proj2 Hi)]. intros id j Hj. by eapply inv_stored.
  Qed.

  (** *** Payloads *)
  Section payload.
    Context (P : string → M → Prop).
    Definition GP (k : nat) (j : job M) : Prop := P (jid j) (data j).
    Lemma closed_payload : closed prof sched clock GP GP.
    Proof using SO. split; try done. intros k j js j' H E1 E2. rewrite (dec_enc_job _ _ E1) in E2. by injection E2 as <-. Qed.
    Lemma payload es :
      along (payload_event P) init es →
      let s := fafter es in
      (∀ id (j : job M), stored (fw (sw s)) id = Some j → jid j = id ∧ P id (data j)) ∧
      (∀ j, j ∈ runs s → P (jid j) (data j)).
    Proof.
      intros Ha. destruct (instance GP GP (payload_event P) es closed_payload) as (H1 & _ & H3); [|done|].
      - intros s e Hi. unfold payload_event, event_ok, ev_ok. destruct (core e); try done; try (by left).
        intros H t Ht. split; [intros Hp; by apply H|]. intros Hp r r' o Er Eu.
        destruct Hi as (_ & Htj & _). pose proof (Forall_lookup_1 _ _ _ _ Htj Ht) as [_ Hj].
        split; [exact Hj|]. intros t' _. exact Hj.
      - split; [|by apply list.Forall_forall]. intros id j Hj. destruct (H1 id j Hj) as [<- H]. done.
    Qed.
  End payload.

  (** *** Unreadable payloads *)
  Section unreadable.
    Context (id : string).
    Definition GU (k : nat) (j : job M) : Prop := jid j ≠ id.
    Lemma closed_unreadable : closed prof sched clock GU GU.
    Proof.
      split; try done. intros k j js j' H E1 E2. unfold GU, jid. by rewrite (dec_enc_ctx _ _ _ E1 E2).
    Qed.
    Lemma never_runs es :
      Forall (λ e, match core e with EvEnqueue j _ => jid j = id → unreadable (data j) | _ => True end) es →
      let s := fafter es in
      stored (M := M) (fw (sw s)) id = None ∧ (∀ j, j ∈ runs s → jid j ≠ id).
    Proof.
      intros Ha.
      destruct (instance GU GU (λ s e, match core e with EvEnqueue j _ => jid j = id → unreadable (data j) | _ => True end)
        es closed_unreadable) as (H1 & _ & H3).
      - intros s e Hi Hd. unfold event_ok, ev_ok. destruct (core e) as [j c| | | | | |i u| | | |] eqn:Ec; try done.
        + destruct (decide (jid j = id)); [right; auto|by left].
        + intros t Ht. destruct Hi as (_ & Htj & _). pose proof (Forall_lookup_1 _ _ _ _ Htj Ht) as [_ Hj].
          split; [by intros _|]. intros _ r r' o Er Eu. split; [exact Hj|]. intros t' _. exact Hj.
      - eapply along_forall; [|exact Ha]. done.
      - split; [|by apply list.Forall_forall].
        match goal with |- ?o = None => destruct o as [j|] eqn:E end; [|done]. by destruct (H1 id j E).
    Qed.
  End unreadable.

  (** *** Where stored jobs come from *)
  Lemma near_round d : near_us d (round_us d).
  Proof.
    unfold near_us, round_us, dur_to_us. destruct (0 <=? d); split.
    - eexists; done.
    - pose proof (Z.div_mod (d + 500) 1000). pose proof (Z.mod_pos_bound (d + 500) 1000). lia.
    - eexists; done.
    - pose proof (Z.div_mod (- d + 500) 1000). pose proof (Z.mod_pos_bound (- d + 500) 1000). lia.
  Qed.
  Lemma round_mult d : (1000 | d) → round_us d = d.
  Proof.
    intros [z ->]. unfold round_us, dur_to_us. destruct (Z.leb_spec 0 (z * 1000)).
    - rewrite Z.div_add_l by lia. change (500 / 1000) with 0. lia.
    - replace (- (z * 1000) + 500) with ((- z) * 1000 + 500) by lia.
      rewrite Z.div_add_l by lia. change (500 / 1000) with 0. lia.
  Qed.
  Lemma cut_trunc t : cut_us t (trunc_us t).
  Proof. split; [eexists; done|]. apply trunc_us_bounds. Qed.
  Lemma trunc_mult t : (1000 | t) → trunc_us t = t.
  Proof. intros [z ->]. unfold trunc_us, to_us, of_us. by rewrite Z.div_mul. Qed.
  Lemma same_dur_norm d0 d : same_dur d0 d → same_dur d0 (round_us d).
  Proof. intros [-> |[H1 H2]]; right; [apply near_round|]. rewrite round_mult by done. by split. Qed.
  Lemma retry_from_norm o0 o : retry_from o0 o → retry_from o0 (norm_retry <$> o).
  Proof.
    destruct o0 as [[n0 m0 [d0|d0]]|], o as [[n m [d|d]]|]; cbn; try done; intros [H1 H2]; (split; [done|]);
      by apply same_dur_norm.
  Qed.
  Lemma type_from_norm P t0 t : type_from P t0 t → type_from P t0 (norm_type t).
  Proof.
    destruct t0 as [|a0|e0 s0 n0 [k0 m0 x0]], t as [|a|e s n [k m x]]; cbn; try done.
    - intros [-> |[[H1 H2]|H]]; [right; left; apply cut_trunc| |by right; right].
      rewrite trunc_mult by done. right; left. by split.
    - intros (-> & -> & H). split; [done|]. split; [done|].
      destruct x0 as [x0|], x as [x|]; cbn; try done. destruct H as [-> |[H1 H2]]; right; [apply cut_trunc|].
      rewrite trunc_mult by done. by split.
  Qed.
  Section origin.
    Context (es : list (event M)).
    Definition GO (k : nat) (j : job M) : Prop := ∃ j0, submitted_in es j0 ∧ derived j0 j.
    Lemma closed_origin : closed prof sched clock GO GO.
    Proof.
      split; try done.
      - intros k j js j' (j0 & H1 & H2 & H3 & H4 & H5) E1 E2. exists j0. split; [done|].
        unfold derived, jid. rewrite (dec_enc_ctx _ _ _ E1 E2). split; [done|]. split; [done|].
        split; [by apply retry_from_norm|by apply type_from_norm].
      - intros k j e slot n cc aft up n' (j0 & H1 & H2 & H3 & H4 & H5) Et _ _ _ _ _. exists j0. split; [done|].
        split; [done|]. split; [done|]. split; [done|]. rewrite Et in H5. cbn.
        by destruct (jtype (ctx j0)).
      - intros k j r r' t (j0 & H1 & H2 & H3 & H4 & H5) Er Es Ea. exists j0. split; [done|].
        rewrite Er in H4.
        assert (retry_from (jretry (ctx j0)) (Some r')) as H4'.
        { destruct r as [n m sg]. unfold retry_retry_at in Ea. cbn in Ea.
          destruct (i32_norm prof (n + 1)) as [n'|]; [|done]. cbn in Ea.
          destruct sg as [d|d].
          - destruct (dt_add (clock k) d); [|done]. cbn in Ea. by injection Ea as <- _.
          - destruct (pow2_i32 prof n'); [|done]. cbn in Ea.
            destruct (dt_add (clock k) _); [|done]. cbn in Ea. by injection Ea as <- _. }
        split; [done|]. split; [done|]. split; [done|]. cbn.
        assert (jretry (ctx j0) ≠ None) by by destruct (jretry (ctx j0)).
        destruct (jtype (ctx j0)); [done|by right; right|done].
    Qed.
  End origin.
  Lemma origin es :
    Forall (λ e, default_retry (core e)) es →
    let s := fafter es in
    (∀ id (j : job M), stored (fw (sw s)) id = Some j →
       jid j = id ∧ ∃ j0, submitted_in es j0 ∧ derived j0 j) ∧
    (∀ j, j ∈ runs s → ∃ j0, submitted_in es j0 ∧ derived j0 j).
  Proof.
    intros Ha.
    destruct (instance (GO es) (GO es) (λ s e, e ∈ es ∧ default_retry (core e)) es (closed_origin es)) as (H1 & _ & H3).
    - intros s e Hi [Hin Hd]. unfold event_ok, ev_ok. destruct (core e) as [j c| | | | | |i u| | | |] eqn:Ec; try done.
      + left. exists j. split; [by exists e, c|]. unfold derived. split; [done|]. split; [done|]. split.
        * destruct (jretry (ctx j)) as [[n m [d|d]]|]; cbn; try done; (split; [done|]; by left).
        * destruct (jtype (ctx j)) as [|a|ex sl n [k m [x|]]]; cbn; auto.
      + intros t Ht. destruct Hi as (_ & Htj & _). pose proof (Forall_lookup_1 _ _ _ _ Htj Ht) as [_ Hj].
        split; [by intros _|]. intros _ r r' o Er Eu. destruct Hd as [b Hb]. by rewrite Hb in Eu.
    - eapply along_forall; [|apply list.Forall_forall; intros e He; exact He].
      intros s e He. cbn. split; [done|]. rewrite list.Forall_forall in Ha. by apply Ha.
    - split; [done|]. by apply list.Forall_forall.
  Qed.

  (** *** Retry counters *)
  Definition GL (k : nat) (j : job M) : Prop := in_limit j.
  Lemma i32_norm_le x n : i32_min <= x → i32_norm prof x = Some n → i32_min <= n <= x.
  Proof.
    unfold i32_norm. intros Hx. destruct (in_i32 x); [intros [= <-]; lia|]. destruct prof; [done|]. intros [= <-].
    unfold wrap32, i32_min in *.
    pose proof (Z.mod_pos_bound (x + 2147483648) 4294967296).
    assert ((x + 2147483648) mod 4294967296 <= x + 2147483648) by (apply Z.mod_le; lia). lia.
  Qed.
  Lemma closed_limit : closed prof sched clock GL GL.
  Proof.
    split; try done.
    - intros k j js j' H E1 E2 r Er. rewrite (dec_enc_ctx _ _ _ E1 E2) in Er. cbn in Er. destruct (jretry (ctx j)) as [r0|] eqn:E; [|done]. cbn in Er. injection Er as <-.
      destruct (H r0 E) as [H1 H2]. by split.
    - intros k j r r' t H Er Es Ea r1 Er1. cbn in Er1. injection Er1 as <-. destruct (H r Er) as [H1 H2].
      destruct r as [n m sg]. unfold retry_retry_at in Ea. cbn in *.
      destruct (i32_norm prof (n + 1)) as [n'|] eqn:En; [|done]. apply i32_norm_le in En; [|lia].
      assert (r' = Retry n' m sg) as ->.
      { cbn in Ea. destruct sg as [d|d].
        - destruct (dt_add (clock k) d); [|done]. cbn in Ea. by injection Ea as <- _.
        - destruct (pow2_i32 prof n'); [|done]. cbn in Ea.
          destruct (dt_add (clock k) _); [|done]. cbn in Ea. by injection Ea as <- _. }
      cbn. split; [lia|]. intros m' [= ->]. unfold should_retry in Es. cbn in Es. apply Z.ltb_lt in Es. lia.
  Qed.
  Lemma limits es :
    Forall (λ e, default_retry (core e) ∧ match core e with EvEnqueue j _ => in_limit j | _ => True end) es →
    let s := fafter es in
    (∀ id (j : job M), stored (fw (sw s)) id = Some j → in_limit j) ∧
    (∀ j, j ∈ runs s → in_limit j).
  Proof.
    intros Ha.
    destruct (instance GL GL (λ s e, default_retry (core e) ∧ match core e with EvEnqueue j _ => in_limit j | _ => True end)
      es closed_limit) as (H1 & _ & H3).
    - intros s e Hi [Hd He]. unfold event_ok, ev_ok. destruct (core e) as [j c| | | | | |i u| | | |] eqn:Ec; try done; try (by left).
      intros t Ht. destruct Hi as (_ & Htj & _). pose proof (Forall_lookup_1 _ _ _ _ Htj Ht) as [_ Hj].
      split; [by intros _|]. intros _ r r' o Er Eu. destruct Hd as [b Hb]. by rewrite Hb in Eu.
    - eapply along_forall; [|exact Ha]. done.
    - split; [|by apply list.Forall_forall]. intros id j Hj. by apply (H1 id j).
  Qed.

  (** *** Executions are due *)
  Definition RD (k : nat) (j : job M) : Prop :=
    jstatus (ctx j) = Running ∧ ∃ k0, picked_at clock 0 k j k0.
  Lemma closed_due : closed prof sched clock (λ _ _, True) RD.
  Proof.
    split; try done.
    - intros k k' j Hk (H1 & k0 & H2 & H3 & H4). split; [done|]. exists k0. split; [done|]. split; [lia|done].
    - intros k j _ Hr. split; [done|]. exists k. split; [lia|]. split; [lia|]. split; [|done].
      unfold due. cbn. change (due j (clock k)). by apply due_ready.
  Qed.
  Lemma due_runs es :
    let s := fafter es in
    ∀ j, j ∈ runs s → jstatus (ctx j) = Running ∧ ∃ k, picked_at clock 0 (reads (fw (sw s))) j k.
  Proof.
    destruct (instance (λ _ _, True) RD (λ _ _, True) es closed_due) as (_ & _ & H3).
    - intros s e Hi _. unfold event_ok, ev_ok. destruct (core e) as [| | | | | |i u| | | |]; try done; try (by left).
      intros t Ht. destruct Hi as (_ & Htj & _). pose proof (Forall_lookup_1 _ _ _ _ Htj Ht) as [_ Hj].
      split; [by intros _|]. intros _ r r' o Er Eu. split; [exact Hj|done].
    - by eapply (along_forall (λ _, True)); [|apply Forall_true].
    - by apply list.Forall_forall.
  Qed.

  (** *** Time stamps *)
  Section stamps.
    Context (Hclock : ∀ k k' : nat, (k <= k')%nat → clock k <= clock k').
    Definition GT (k : nat) (j : job M) : Prop := stamps (ms_of (clock k)) j.
    Definition RT (k : nat) (j : job M) : Prop := GT k j ∧ jstatus (ctx j) = Running.
    Lemma ms_mono k k' : (k <= k')%nat → ms_of (clock k) <= ms_of (clock k').
    Proof using Hclock. intros H. unfold ms_of. apply Z.div_le_mono; [lia|]. by apply Hclock. Qed.
    Lemma stamps_mono t t' (j : job M) : t <= t' → stamps t j → stamps t' j.
    Proof.
      intros H (H1 & H2 & H3 & H4 & H5 & H6). split; [lia|]. repeat split; try done.
      - by apply H2.
      - destruct (H2 t0 H0); lia.
      - intros x Hx. specialize (H3 x Hx). lia.
      - intros x Hx. specialize (H4 x Hx). lia.
      - intros x Hx. specialize (H5 x Hx). lia.
    Qed.
    Lemma closed_stamps : closed prof sched clock GT RT.
    Proof using Hclock.
      assert (∀ k k' j, (k <= k')%nat → GT k j → GT k' j) as Hm.
      { intros k k' j Hk. apply stamps_mono. by apply ms_mono. }
      assert (∀ k j, GT k j → GT (S k) j) as HS by (intros k j; apply Hm; lia).
      assert (∀ k, ms_of (clock k) <= ms_of (clock (S k))) as Hle by (intros k; apply ms_mono; lia).
      split; try done.
      - intros k k' j Hk [H1 H2]. split; [by eapply Hm|done].
      - by intros k j [].
      - intros k j js j' H E1 E2. unfold GT, stamps. by rewrite (dec_enc_ctx _ _ _ E1 E2).
      - intros k j H. specialize (Hle k). destruct H as (H1 & H2 & H3 & H4 & H5 & H6).
        split; [cbn; lia|]. split; [cbn; intros t [= <-]; lia|].
        split; [intros t Ht; specialize (H3 t Ht); lia|]. split; [intros t Ht; specialize (H4 t Ht); lia|].
        split; [intros t Ht; specialize (H5 t Ht); lia|]. done.
      - intros k j H Hrd. pose proof (Hle k) as L1. pose proof (Hle (S k)) as L2. split; [|done].
        destruct H as (H1 & H2 & H3 & H4 & H5 & H6).
        split; [cbn; lia|]. split; [cbn; intros t Ht; specialize (H2 t Ht); lia|].
        split; [cbn; intros t [= <-]; lia|]. split; [intros t Ht; specialize (H4 t Ht); lia|].
        split; [intros t Ht; specialize (H5 t Ht); lia|]. cbn. eexists; split; [done|].
        intros e He. specialize (H2 e He). lia.
      - intros k j [H Hst]. pose proof (Hle k) as L1. destruct H as (H1 & H2 & H3 & H4 & H5 & H6).
        rewrite Hst in H6. destruct H6 as (r & Hr & He).
        split; [cbn; lia|]. split; [cbn; intros t Ht; specialize (H2 t Ht); lia|].
        split; [intros t Ht; specialize (H3 t Ht); lia|]. split; [cbn; intros t [= <-]; lia|].
        split; [intros t Ht; specialize (H5 t Ht); lia|]. cbn. exists r. eexists. split; [done|]. split; [done|].
        split; [|done]. by apply H3.
      - intros k j [H Hst]. pose proof (Hle k) as L1. destruct H as (H1 & H2 & H3 & H4 & H5 & H6).
        rewrite Hst in H6. destruct H6 as (r & Hr & He).
        split; [cbn; lia|]. split; [cbn; intros t Ht; specialize (H2 t Ht); lia|].
        split; [intros t Ht; specialize (H3 t Ht); lia|]. split; [cbn; intros t [= <-]; lia|].
        split; [intros t Ht; specialize (H5 t Ht); lia|]. cbn. exists r. eexists. split; [done|]. split; [done|].
        split; [|done]. by apply H3.
      - intros k j H Hst. pose proof (Hle k) as L1. destruct H as (H1 & H2 & H3 & H4 & H5 & H6).
        split; [cbn; lia|]. split; [cbn; intros t Ht; specialize (H2 t Ht); lia|].
        split; [intros t Ht; specialize (H3 t Ht); lia|]. split; [intros t Ht; specialize (H4 t Ht); lia|].
        split; [cbn; intros t [= <-]; lia|]. cbn. eexists. split; [done|]. intros e He. apply (H2 e He).
      - intros k j e slot n cc aft up n' [H Hst] _ _ _ _ _ _. by apply HS, HS.
      - intros k j r r' t [H Hst] _ _ _. by apply HS.
    Qed.
    Lemma stamps_hold es :
      along (stamped_event clock) init es →
      let s := fafter es in
      (∀ id (j : job M), stored (fw (sw s)) id = Some j → stamps (ms_of (clock (reads (fw (sw s))))) j) ∧
      (∀ j, j ∈ runs s → stamps (ms_of (clock (reads (fw (sw s))))) j).
    Proof using Hclock.
      intros Ha. destruct (instance GT RT (stamped_event clock) es closed_stamps) as (H1 & _ & H3); [|done|].
      - intros s e Hi. unfold stamped_event, event_ok, ev_ok. destruct (core e) as [| | | | | |i u| | | |]; try done; try (by left).
        intros _ t Ht. destruct Hi as (_ & Htj & _). pose proof (Forall_lookup_1 _ _ _ _ Htj Ht) as [_ Hj].
        split; [by intros _|]. intros _ r r' o Er Eu. split; [exact Hj|]. intros t' _. apply Hj.
      - split; [intros id j Hj; by apply (H1 id j)|]. intros j Hj. rewrite list.Forall_forall in H3. by apply (H3 j).
    Qed.
  End stamps.
End props.
