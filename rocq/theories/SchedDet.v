(** With a clock that stands still, the scheduler of SpecSched.v leaves no choice. *)
From Verif Require Import Spec SpecSched.
Open Scope Z_scope.

Section det.
  Context {M : Type}.
  Context (schedule : string → option (time → option time)).
  Context (now : time).
  Notation N := (λ t : time, t = now).

  Lemma look_det (b : board M) n ids js1 l1 : look N b n ids js1 l1 →
    ∀ js2 l2, look N b n ids js2 l2 → js1 = js2 ∧ l1 = l2.
  Proof.
    induction 1 as [n|n id ids j t t' js lf Hj Ht Hd Ht' _ IH|n id ids j t js lf Hj Ht Hd _ IH]; intros js2 l2 H2.
    - by inversion H2.
    - inversion H2 as [|? ? ? ? ? ? ? ? E1 E2 E3 E4 E5|? ? ? ? ? ? ? E1 E2 E3 E4]; subst.
      + rewrite Hj in E1. injection E1 as <-. by destruct (IH _ _ E5) as [<- <-].
      + rewrite Hj in E1. injection E1 as <-. by destruct E3.
    - inversion H2 as [|? ? ? ? ? ? ? ? E1 E2 E3 E4 E5|? ? ? ? ? ? ? E1 E2 E3 E4]; subst.
      + rewrite Hj in E1. injection E1 as <-. by destruct Hd.
      + by destruct (IH _ _ E4) as [<- <-].
  Qed.
  Lemma rounds_det (b : board M) m n w js1 w1 : rounds N b m n w js1 w1 →
    ∀ js2 w2, rounds N b m n w js2 w2 → js1 = js2 ∧ w1 = w2.
  Proof.
    induction 1 as [m n w He|m n w js lf js' w' Hm Hn Hl _ IH]; intros js2 w2 H2.
    - inversion H2; subst; [done|]. lia.
    - inversion H2 as [? ? ? He|? ? ? ? ? ? ? E1 E2 E3 E4]; subst; [lia|].
      destruct (look_det b _ _ _ _ Hl _ _ E3) as [<- <-]. by destruct (IH _ _ E4) as [<- <-].
  Qed.

  Lemma ewr_det (j : job M) failed e1 e2 :
    (∀ x slot n cc, jtype (ctx j) = Cron x slot n cc → i32_min <= n + 1 <= i32_max) →
    ends_without_retry schedule N j failed e1 → ends_without_retry schedule N j failed e2 → e1 = e2.
  Proof.
    unfold ends_without_retry. intros Hc. destruct (jtype (ctx j)) as [|a|x slot n cc]; [congruence..|].
    destruct (schedule x) as [next|]; [|congruence].
    intros (t1 & t1' & -> & -> & H1) (t2 & t2' & -> & -> & H2). cbv zeta in H1, H2.
    destruct (next now); [|congruence]. rewrite decide_True in H1, H2 by by eapply Hc. congruence.
  Qed.
  Lemma ends_det (j : job M) u e1 e2 :
    (∀ r, jretry (ctx j) = Some r → delay r ≠ None) →
    (∀ x slot n cc, jtype (ctx j) = Cron x slot n cc → i32_min <= n + 1 <= i32_max) →
    ends schedule N j u e1 → ends schedule N j u e2 → e1 = e2.
  Proof.
    unfold ends. intros Hr Hc. destruct (jretry (ctx j)) as [r|]; [|by apply ewr_det].
    destruct (ur_retry u) as [f|r' [t|]]; [|congruence|by apply ewr_det].
    destruct (wants_retry r f); [|by apply ewr_det].
    intros (t1 & -> & H1) (t2 & -> & H2). specialize (Hr r eq_refl). destruct (delay r); [|done]. cbv zeta in H1, H2. congruence.
  Qed.

  Lemma alike_refl (o : option (job M)) : alike o o.
  Proof. by left. Qed.
  Lemma rest_det (b1 b2 : board M) u l w s x r :
    rest_is b1 u l w s x r → rest_is b2 u l w s x r →
    up b1 = up b2 ∧ limit b1 = limit b2 ∧ waiting b1 = waiting b2 ∧ slots b1 = slots b2 ∧ execs b1 = execs b2 ∧ begun b1 = begun b2.
  Proof.
    intros (-> & -> & -> & H1 & -> & ->) (-> & -> & -> & H2 & -> & ->). by rewrite H1, H2.
  Qed.
  Lemma same_det (b b1 b2 : board M) u l w s x r :
    same_records b b1 → same_records b b2 → rest_is b1 u l w s x r → rest_is b2 u l w s x r → same_board b1 b2.
  Proof.
    intros H1 H2 R1 R2. destruct (rest_det _ _ _ _ _ _ _ _ R1 R2) as (?&?&?&?&?&?).
    split; [done|]. split; [done|]. split; [|done]. intros id. left. by rewrite H1, H2.
  Qed.
  Lemma with_det (b b1 b2 : board M) id j u l w s x r :
    with_record b b1 id j → with_record b b2 id j → rest_is b1 u l w s x r → rest_is b2 u l w s x r → same_board b1 b2.
  Proof.
    intros [(j1 & A1 & A2) A3] [(j2 & B1 & B2) B3] R1 R2. destruct (rest_det _ _ _ _ _ _ _ _ R1 R2) as (?&?&?&?&?&?).
    split; [done|]. split; [done|]. split; [|done]. intros k. destruct (decide (k = id)) as [->|Hk].
    - right. by exists j, j1, j2.
    - left. by rewrite A3, B3.
  Qed.
  Lemma unchanged_det (b b1 b2 : board M) : unchanged b b1 → unchanged b b2 → same_board b1 b2.
  Proof. intros [H1 R1] [H2 R2]. by eapply same_det. Qed.
  Lemma queued_det (b b1 b2 : board M) j : queued N b b1 j → queued N b b2 j → same_board b1 b2.
  Proof. intros (t1 & -> & H1 & R1) (t2 & -> & H2 & R2). by eapply with_det. Qed.
  Lemma dead_det (b b1 b2 : board M) : dead b b1 → dead b b2 → same_board b1 b2.
  Proof. intros [H1 R1] [H2 R2]. by eapply same_det. Qed.
  Lemma tick_det (b b1 b2 : board M) :
    Z.of_nat (length (waiting b)) < 2 ^ 31 → tick N b b1 → tick N b b2 → same_board b1 b2.
  Proof.
    intros Hl [?|(js1 & w1 & H1 & A1 & A2 & R1)] [?|(js2 & w2 & H2 & B1 & B2 & R2)]; [lia..|].
    destruct (rounds_det _ _ _ _ _ _ H1 _ _ H2) as [<- <-].
    destruct (rest_det _ _ _ _ _ _ _ _ R1 R2) as (?&?&?&?&?&?).
    split; [done|]. split; [done|]. split; [|done]. intros id. left.
    destruct (decide (id ∈ map jid js1)) as [(x & -> & Hx)%elem_of_list_fmap|Hn]; [by rewrite A1, B1|by rewrite A2, B2].
  Qed.

  Lemma step_det (b b1 b2 : board M) e r1 r2 :
    counts_fit b e →
    sched_step schedule N b e r1 b1 → sched_step schedule N b e r2 b2 → r1 = r2 ∧ same_board b1 b2.
  Proof.
    intros Hf. unfold sched_step. destruct (up b).
    - destruct e as [j c|id|id|id|c| |i u| | |e n|].
      + intros [-> H1] [-> H2]. split; [done|]. unfold submit in H1, H2. destruct (records b (jid j)) as [old|]; [|by eapply queued_det].
        destruct (re_run c && _); [by eapply queued_det|]. destruct (override_data c && _); [|by eapply unchanged_det].
        destruct H1, H2. by eapply with_det.
      + intros [-> H1] [-> H2]. split; [done|]. unfold cancel in H1, H2. destruct (records b id) as [j|]; [|by eapply unchanged_det].
        destruct (decide _); [|by eapply unchanged_det]. destruct H1 as (t1 & -> & H1 & R1), H2 as (t2 & -> & H2 & R2). by eapply with_det.
      + intros [-> H1] [-> H2]. split; [done|]. by eapply unchanged_det.
      + intros (x1 & -> & H1) (x2 & -> & H2). unfold retry_by_hand in H1, H2. destruct (records b id) as [j|].
        * destruct (bool_decide _); destruct H1 as [-> H1], H2 as [-> H2]; (split; [done|]); [by eapply queued_det|by eapply unchanged_det].
        * destruct H1 as [-> H1], H2 as [-> H2]. split; [done|]. by eapply unchanged_det.
      + intros (-> & H1 & R1) (-> & H2 & R2). split; [done|]. by eapply same_det.
      + intros [-> H1] [-> H2]. split; [done|]. by eapply tick_det.
      + intros [-> H1] [-> H2]. split; [done|]. unfold go_on in H1, H2. cbn [counts_fit] in Hf.
        destruct (execs b !! i) as [[j [| | |]]|]; cbv zeta in H1, H2.
        1,2,3: destruct H1, H2; by eapply same_det.
        2: by eapply unchanged_det.
        destruct (Hf j eq_refl) as [Hf1 Hf2]. destruct H1 as (e1 & E1 & H1), H2 as (e2 & E2 & H2).
        assert (e1 = e2) as <- by by eapply ends_det.
        destruct e1 as [j'|s j'|]; [| |by eapply dead_det]; destruct H1 as (t1 & -> & H1 & R1), H2 as (t2 & -> & H2 & R2); by eapply with_det.
      + intros [-> H1] [-> H2]. split; [done|]. by eapply dead_det.
      + intros [-> H1] [-> H2]. split; [done|]. by eapply dead_det.
      + done.
      + intros [-> H1] [-> H2]. split; [done|]. by eapply unchanged_det.
    - destruct e as [j c|id|id|id|c| |i u| | |e n|]; intros [-> H1] [-> H2]; (split; [done|]); try (by eapply unchanged_det).
      by eapply tick_det; [|exact H1|exact H2].
  Qed.
End det.
