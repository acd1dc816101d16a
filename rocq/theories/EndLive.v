(** Fair endless executions: every submitted job is executed. *)
From Coq Require Import ConstructiveEpsilon.
From Verif Require Import SpecEnd SpecLive ClientFacts ClientProgress EndFacts LifeFacts HistFacts SubmitFacts LifeProps ApiFacts
  BuilderFacts LiveFacts.

Section any.
  Context {M : Type} `{SM : Serde M}.
  Context (prof : profile).
  Context (sched : string → option (time → option time)).
  Context (name : string).
  Context {W : Type} (h : handler W).
  Notation step := (sys_step prof sched name h).
  Notation fstep := (fstep prof sched name h).
  Notation qstep := (queue_step prof sched name h).
  Implicit Types (f : front M W) (c : cstate M).

  Lemma calm_msg c : calm (msg_of c).
  Proof. unfold msg_of. destruct (c_upd c); [done|]. by destruct (c_call c). Qed.
  Lemma panic_dies (s : sys W M) : alive (step s EvPanic).1 = false.
  Proof.
    unfold sys_step. destruct (alive s) eqn:E; [|done]. by cbn.
  Qed.

  (** The queue starts once. *)
  Definition once f : Prop :=
    begun f = false ∧ trace f = [] ∨
    begun f = true ∧ ∃ r tr, trace f = (None, EvStart, r) :: tr ∧ Forall (λ x, calm x.1.2) tr.
  Lemma once_qstep f o b e : once f → begun f = true → calm e → once (qstep f o b e).
  Proof.
    intros [[H _]|(_ & r & tr & Et & Hc)] Hb He; [congruence|]. right.
    unfold queue_step, settle. destruct (step (q f) e) as [s r1].
    assert (∃ r tr', trace f ++ [(o, e, r1)] = (None, EvStart, r) :: tr' ∧ Forall (λ x, calm x.1.2) tr') as H.
    { exists r, (tr ++ [(o, e, r1)]). rewrite Et. split; [done|]. apply Forall_app. split; [done|]. by constructor. }
    by destruct (alive s).
  Qed.
  Lemma once_step f x :
    boxed f → once f → dies x = false → (begun (fstep f x) = true → alive (q (fstep f x)) = true) → once (fstep f x).
  Proof.
    intros Hbox Hf Hd Hal.
    assert (∀ f', begun f' = begun f → trace f' = trace f → once f') as Hsame.
    { intros f' E1 E2. unfold once. by rewrite E1, E2. }
    destruct x as [c|i| | | | |e| |o k]; cbn [Client.fstep] in *; try done.
    - destruct c; try (by apply Hsame). by destruct (aj_up f); apply Hsame.
    - destruct (cs f !! i) as [c|]; [|done]. destruct (c_at c); try done; repeat case_match; by apply Hsame.
    - destruct (aj_box f) as [|i b]; [done|]. destruct (cs f !! i) as [c|]; [|by apply Hsame].
      destruct (c_at c); try (by apply Hsame). destruct (known f) eqn:Ek; [by apply Hsame|].
      apply Hsame; [|done]. cbn. destruct Hbox as (_ & _ & _ & Hbk). destruct (begun f); [|done]. by rewrite Hbk in Ek.
    - destruct (known f && negb (begun f)) eqn:E; [|done]. apply andb_true_iff in E as [_ Eb%negb_true_iff].
      destruct Hf as [[_ Et]|[H _]]; [|congruence]. right. unfold queue_step, settle in *.
      destruct (step (q f) EvStart) as [s r]. rewrite Et in *. cbn in *. destruct (alive s); eauto.
    - destruct (q_box f) as [|i b]; [done|]. destruct (cs f !! i) as [c|]; [|done].
      destruct (begun f && alive (q f)) eqn:E; [|done]. apply andb_true_iff in E as [Eb _].
      apply once_qstep; [done|done|]. apply calm_msg.
    - destruct (begun f && alive (q f) && own_event e) eqn:E; [|done].
      apply andb_true_iff in E as [[Eb _]%andb_true_iff Eo]. apply once_qstep; [done|done|].
      destruct e; try done. exfalso. unfold queue_step, settle in Hal. pose proof (panic_dies (q f)) as Hp.
      destruct (step (q f) EvPanic) as [s r]. cbn in Hp. rewrite Hp in Hal. cbn in Hal. by rewrite Hal in Hp.
  Qed.

  (** Calls that submit a job. *)
  Definition submission (C : call M) (j : job M) (ec : enqueue_config) : Prop := C = CRun j ec ∨ C = CJust j ∧ ec = new_re_run.
  Lemma submission_msg C j ec c : submission C j ec → c_call c = C → c_upd c = None → msg_of c = EvEnqueue j ec ∧ inits c = true.
  Proof. intros HC Ec Eu. unfold msg_of, inits. rewrite Ec, Eu. by destruct HC as [->|[-> ->]]. Qed.
  Lemma submission_recv C j ec c n r : submission C j ec → c_call c = C → recv n c r = goto c (Returned r n).
  Proof. intros HC Ec. unfold recv. rewrite Ec. by destruct HC as [->|[-> _]]. Qed.
  (** What becomes of a call to run() or just_run(). *)
  Definition runs_well (i : nat) (C : call M) (j : job M) (ec : enqueue_config) f : Prop :=
    submission C j ec ∧ ∃ c, cs f !! i = Some c ∧ c_call c = C ∧ c_upd c = None ∧
      match c_at c with
      | Returned r _ => ∃ k, trace f !! k = Some (Some i, EvEnqueue j ec, r)
      | AtSpawn | AtLookup | AtInit | InitSent => True
      | AtSend | MsgSent => known f = true
      | _ => False
      end.
  Lemma well_qstep i C j ec f o b e :
    runs_well i C j ec f → alive (q (qstep f o b e)) = true →
    match o with Some k => ∃ c, cs f !! k = Some c ∧ e = msg_of c | None => True end →
    runs_well i C j ec (qstep f o b e).
  Proof.
    intros (HC & c & Ei & Ec & Eu & Hat). unfold queue_step, settle. destruct (step (q f) e) as [s r].
    destruct (alive s) eqn:Ea; cbn; [|congruence]. intros _ Ho. split; [exact HC|]. cbn [cs trace known].
    assert (match c_at c with
      | Returned r0 _ => ∃ k, (trace f ++ [(o, e, r)]) !! k = Some (Some i, EvEnqueue j ec, r0)
      | AtSpawn | AtLookup | AtInit | InitSent => True
      | AtSend | MsgSent => known f = true
      | _ => False
      end) as Hat'.
    { destruct (c_at c); try done. destruct Hat as [k Hk]. exists k. by apply lookup_app_l_Some. }
    destruct o as [k|]; [|by exists c].
    destruct (decide (k = i)) as [->|Hne].
    - rewrite list_lookup_alter, Ei. cbn. destruct (c_at c) eqn:Eat; try (exists c; rewrite Eat; done).
      exists (recv (length (trace f ++ [(Some i, e, r)])) c r). split; [done|].
      rewrite (submission_recv C j ec c _ _ HC Ec). cbn. split; [done|]. split; [done|].
      destruct Ho as (c1 & E1 & ->). rewrite Ei in E1. injection E1 as <-.
      exists (length (trace f)). rewrite list_lookup_middle by done. by rewrite (proj1 (submission_msg C j ec c HC Ec Eu)).
    - rewrite list_lookup_alter_ne by done. by exists c.
  Qed.
  Lemma well_step i C j ec f x :
    boxed f → runs_well i C j ec f → dies x = false →
    aj_up f = true → aj_up (fstep f x) = true →
    (begun f = true → alive (q f) = true) →
    (begun (fstep f x) = true → alive (q (fstep f x)) = true) → runs_well i C j ec (fstep f x).
  Proof.
    intros Hbox Hf Hd Hup Hup' Hal Hal'. pose proof Hf as (HC & c & Ei & Ec & Eu & Hat).
    pose proof (lookup_lt_Some _ _ _ Ei) as Hlt.
    assert (∀ f', cs f' !! i = Some c → trace f' = trace f → (known f = true → known f' = true) → runs_well i C j ec f') as Hsame.
    { intros f' E1 E2 E3. split; [done|]. exists c. split; [done|]. split; [done|]. split; [done|]. rewrite E2. destruct (c_at c); auto. }
    assert (∀ f' p, cs f' !! i = Some (goto c p) →
      match p with AtSpawn | AtLookup | AtInit | InitSent => True | AtSend | MsgSent => known f' = true | _ => False end →
      runs_well i C j ec f') as Hgo.
    { intros f' p E1 Hp. split; [done|]. exists (goto c p). split; [done|]. split; [done|]. split; [done|]. cbn. by destruct p. }
    assert (begun (qstep f None (q_box f) EvStart) = true) as Hb1.
    { unfold queue_step, settle. destruct (step (q f) EvStart) as [s r]. by destruct (alive s). }
    assert (∀ o b e, begun (qstep f o b e) = true) as Hb2.
    { intros o b e. unfold queue_step, settle. destruct (step (q f) e) as [s r]. by destruct (alive s). }
    destruct x as [c0|k| | | | |e| |o k]; cbn [Client.fstep] in *; try done.
    - assert (∀ l, (cs f ++ l) !! i = Some c) as Hl by (intros l; by apply lookup_app_l_Some).
      destruct c0; try (apply Hsame; [apply Hl|done|done]). destruct (aj_up f); (apply Hsame; [apply Hl|done|done]).
    - destruct (cs f !! k) as [c1|] eqn:Ek; [|done].
      destruct (decide (k = i)) as [->|Hne].
      + rewrite Ei in Ek. injection Ek as <-. destruct (c_at c) eqn:Eat; try done.
        * assert (inits c = true) as Ein by exact (proj2 (submission_msg C j ec c HC Ec Eu)). rewrite Ein.
          destruct (known f) eqn:Ekn.
          -- eapply (Hgo _ AtSend); [cbn; by rewrite list_lookup_insert|done].
          -- eapply (Hgo _ AtInit); [cbn; by rewrite list_lookup_insert|done].
        * rewrite Hup in *. eapply (Hgo _ InitSent); [cbn; by rewrite list_lookup_insert|done].
        * assert (mailbox_open f = true) as Em.
          { unfold mailbox_open. rewrite Hat. cbn. destruct (begun f); [by apply Hal|done]. }
          rewrite Em. eapply (Hgo _ MsgSent); [cbn; by rewrite list_lookup_insert|done].
      + assert (∀ c', <[k:=c']> (cs f) !! i = Some c) as Hl by (intros c'; by rewrite list_lookup_insert_ne).
        destruct (c_at c1); try done; repeat case_match; (apply Hsame; [apply Hl|done|done]).
    - destruct (aj_box f) as [|k b]; [done|]. destruct (cs f !! k) as [c1|] eqn:Ek; [|by apply Hsame].
      destruct (decide (k = i)) as [->|Hne].
      + rewrite Ei in Ek. injection Ek as <-. destruct (c_at c) eqn:Eat; try (by apply Hsame).
        * eapply (Hgo _ AtLookup); [cbn; by rewrite list_lookup_insert|done].
        * destruct (known f) eqn:Ekn; [done|]. eapply (Hgo _ AtSend); [cbn; by rewrite list_lookup_insert|done].
      + assert (∀ c', <[k:=c']> (cs f) !! i = Some c) as Hl by (intros c'; by rewrite list_lookup_insert_ne).
        destruct (c_at c1) eqn:Eat; try (by apply Hsame); try (apply Hsame; [apply Hl|done|done]).
        destruct (known f) eqn:Ekn; [done|]. apply Hsame; [apply Hl|done|done].
    - destruct (known f && negb (begun f)) eqn:E; [|done]. apply well_qstep; [done| |done]. by apply Hal'.
    - destruct (q_box f) as [|k b]; [done|]. destruct (cs f !! k) as [c1|] eqn:Ek; [|done].
      destruct (begun f && alive (q f)) eqn:E; [|done]. apply well_qstep; [done| |eauto]. apply Hal', Hb2.
    - destruct (begun f && alive (q f) && own_event e) eqn:E; [|done].
      apply well_qstep; [done| |done]. apply Hal', Hb2.
  Qed.
End any.

Section exec.
  Context {M : Type} `{SM : Serde M} {SO : SerdeOk M}.
  Context (prof : profile).
  Context (sched : string → option (time → option time)).
  Context (name : string).
  Context (clock : nat → time).
  Notation h := (mem_h clock).
  Notation step := (sys_step prof sched name h).
  Notation go := (sys_run prof sched name h).
  Notation after := (after prof sched name clock).
  Notation qlist := (qlist name).
  Notation stored := (@stored M SM).
  Notation arrivals := (arrivals prof sched name clock).
  Notation moment := (moment prof sched name clock).

  Lemma arrivals_bound (st : sys world M) es :
    (length (qlist (sw (go st es)) Queued) <= length (qlist (sw st) Queued) + arrivals st es)%nat.
  Proof.
    revert st. induction es as [|e es IH]; intros st; [cbn -[Spec.qlist]; lia|]. cbn [Spec.arrivals].
    specialize (IH (step st e).1). change (go st (e :: es)) with (go (step st e).1 es). lia.
  Qed.
  Lemma absent_until id es :
    ok_hist prof sched name clock initial es → Forall (λ e, ¬ submits id e) es →
    stored (sw (after es)) id = None ∧ runs_of id (after es) = [].
  Proof.
    intros Hok HE.
    destruct (life_ind_after prof sched name clock (λ e, ¬ submits id e) (λ _ p rs, p = PAbsent ∧ rs = []) id es) as (p' & H1 & -> & H2);
      [|done|done|done|].
    - intros e k p new k' p' rs He [-> ->] Hst. inversion Hst; subst; cbn in *; try done. naive_solver.
    - split; [|done]. by destruct H1.
  Qed.

  Context (fe : nat → fevent M).
  Notation s n := (instant prof sched name h world_empty fe n).
  Notation tr n := (trace (s n)).
  Definition hist (n : nat) : list (event M) := map (λ x, x.1.2) (tr n).
  Context (Hs : serving prof sched name h world_empty fe).
  Context (Hl : lasting prof sched name h world_empty fe).
  Context (Hw : working prof sched name h world_empty fe).
  Context (Hok : ∀ n, ok_hist prof sched name clock initial (hist n)).
  Context (Hlim : ∀ n, begun (s n) = true → (1 <= max_processing_jobs (cfg (q (s n))))%nat).

  Lemma s_S n : s (S n) = fstep prof sched name h (s n) (fe n).
  Proof. apply instant_S. Qed.
  Lemma q_hist n : q (s n) = after (hist n).
  Proof. exact (proj1 (hist_after prof sched name h world_empty (map fe (seq 0 n)))). Qed.
  Lemma tr_S n : tr (S n) = tr n ∨ ∃ x, tr (S n) = tr n ++ [x].
  Proof. rewrite s_S. destruct (trace_step prof sched name h (s n) (fe n)) as [[_ E]|(o & e & _ & E)]; eauto. Qed.
  Lemma tr_prefix n d : tr n `prefix_of` tr (n + d).
  Proof.
    induction d as [|d IH]; [by rewrite Nat.add_0_r|]. rewrite Nat.add_succ_r.
    destruct (tr_S (n + d)) as [->|[x ->]]; [done|]. etrans; [done|]. by apply prefix_app_r.
  Qed.
  Lemma tr_le n m : (n <= m)%nat → tr n `prefix_of` tr m.
  Proof. intros H. replace m with (n + (m - n))%nat by lia. apply tr_prefix. Qed.
  Lemma once_n n : once (s n).
  Proof.
    induction n as [|n IH]; [by left|]. rewrite s_S. apply once_step; [apply boxed_n|done|apply Hl|].
    rewrite <-s_S. apply Hl.
  Qed.
  Lemma begun_tr n : begun (s n) = true ↔ tr n ≠ [].
  Proof.
    destruct (once_n n) as [[-> ->]|(-> & r & l & -> & _)]; split; done.
  Qed.
  Lemma begun_le n m : (n <= m)%nat → begun (s n) = true → begun (s m) = true.
  Proof.
    rewrite !begun_tr. intros Hm Hn. destruct (tr_le n m Hm) as [l ->]. by destruct (tr n).
  Qed.
  Lemma reach k n : (k <= length (tr n))%nat → ∃ m, (m <= n)%nat ∧ length (tr m) = k.
  Proof.
    induction n as [|n IH]; intros Hk; [exists 0%nat; cbn in *; split; [done|lia]|].
    destruct (decide (k <= length (tr n))%nat) as [H|H]; [destruct (IH H) as (m & Hm & E); exists m; split; [lia|done]|].
    exists (S n). split; [done|]. destruct (tr_S n) as [E|[x E]]; rewrite E in *; [lia|]. rewrite app_length in *. cbn in *. lia.
  Qed.
  Lemma own_trace n e : begun (s n) = true → own_event e = true → fe n = FOwn e →
    ∃ r, tr (S n) = tr n ++ [(None, e, r)].
  Proof.
    intros Hb Ho E. rewrite s_S, E. cbn [fstep]. destruct (Hl n) as (_ & _ & Ha). rewrite Hb, (Ha Hb), Ho. cbn [andb].
    unfold queue_step, settle. destruct (step (q (s n)) e) as [st r]. exists r. by destruct (alive st).
  Qed.

  Section begun.
    Context (N : nat) (Hb : begun (s N) = true).

    Lemma grows k : ∃ n, (N <= n ∧ k < length (tr n))%nat.
    Proof.
      induction k as [|k (n & Hn & IH)].
      - exists N. split; [done|]. apply begun_tr in Hb. destruct (tr N); [done|cbn; lia].
      - destruct Hw as [Ht _]. destruct (Ht n) as (m & Hm & E); [by eapply begun_le|].
        destruct (own_trace m EvTick) as [r Er]; [by eapply begun_le; [|exact Hb]; lia|done|done|].
        exists (S m). split; [lia|]. rewrite Er, app_length. cbn. pose proof (prefix_length _ _ (tr_le n m Hm)). lia.
    Qed.
    Definition when (k : nat) : {n | (k < length (tr n))%nat}.
    Proof.
      apply constructive_indefinite_ground_description_nat.
      - intros n. apply lt_dec.
      - destruct (grows k) as (n & _ & H). eauto.
    Defined.
    Definition ev (k : nat) : event M :=
      match tr (proj1_sig (when (S k))) !! S k with Some x => x.1.2 | None => EvTick end.

    Lemma tr_agree n m k x y : tr n !! k = Some x → tr m !! k = Some y → x = y.
    Proof.
      intros H1 H2. destruct (Nat.le_ge_cases n m) as [H|H]; destruct (tr_le _ _ H) as [l E]; rewrite E in *.
      - apply (lookup_app_l_Some _ l) in H1. congruence.
      - apply (lookup_app_l_Some _ l) in H2. congruence.
    Qed.
    Lemma ev_tr n k x : tr n !! S k = Some x → ev k = x.1.2.
    Proof.
      intros H. unfold ev. destruct (when (S k)) as [m Hm]. cbn [proj1_sig]. apply lookup_lt_is_Some in Hm as [y Hy].
      rewrite Hy. by rewrite (tr_agree n m (S k) x y).
    Qed.
    Lemma tr_ev k : ∃ n x, tr n !! S k = Some x ∧ ev k = x.1.2.
    Proof.
      destruct (grows (S k)) as (n & _ & H). apply lookup_lt_is_Some in H as [x Hx].
      exists n, x. split; [done|]. by apply (ev_tr n).
    Qed.
    Lemma hist_ev n : tr n ≠ [] → hist n = EvStart :: map ev (seq 0 (length (tr n) - 1)).
    Proof.
      intros Hn. destruct (once_n n) as [[_ E]|(_ & r & l & E & _)]; [done|].
      unfold hist. rewrite E. cbn [map fst snd length]. f_equal. replace (S (length l) - 1)%nat with (length l) by lia.
      assert (∀ k x, l !! k = Some x → ev k = x.1.2) as Hk. { intros k x Hx. apply (ev_tr n). by rewrite E. }
      clear -Hk. apply list_eq. intros k. rewrite !list_lookup_fmap.
      destruct (l !! k) as [x|] eqn:Ek.
      - rewrite lookup_seq_lt by (by eapply lookup_lt_Some). cbn. by rewrite <-(Hk k x).
      - rewrite lookup_seq_ge by (by apply lookup_ge_None). done.
    Qed.
    Lemma moment_ev n : tr n ≠ [] → moment ev (length (tr n) - 1) = q (s n).
    Proof. intros Hn. unfold SpecLive.moment. by rewrite <-hist_ev, q_hist. Qed.
    Lemma at_moment k : ∃ n, length (tr n) = S k ∧ tr n ≠ [] ∧ moment ev k = q (s n).
    Proof.
      destruct (grows k) as (n & _ & Hk). destruct (reach (S k) n ltac:(lia)) as (m & _ & E).
      assert (tr m ≠ []) as Hm by (destruct (tr m); done).
      exists m. split; [done|]. split; [done|]. rewrite <-moment_ev by done. f_equal. lia.
    Qed.
    Lemma calm_ev k : calm (ev k).
    Proof.
      destruct (tr_ev k) as (n & x & Hx & ->). destruct (once_n n) as [[_ E]|(_ & r & l & E & Hc)]; rewrite E in Hx; [done|].
      cbn in Hx. rewrite list.Forall_forall in Hc. apply Hc. by eapply elem_of_list_lookup_2.
    Qed.
    Lemma healthy_ev : healthy prof sched name clock ev.
    Proof.
      intros k. destruct (at_moment k) as (n & Hn & Ht & Em). split; [apply calm_ev|]. rewrite Em.
      pose proof (proj2 (begun_tr n) Ht) as Hbn. split; [by apply Hl|]. split; [by apply Hlim|].
      pose proof (Hok n) as Ho. rewrite hist_ev, Hn in Ho by done. by replace (S k - 1)%nat with k in Ho by lia.
    Qed.
    Lemma own_ev n e : begun (s n) = true → own_event e = true → fe n = FOwn e →
      ev (length (tr n) - 1) = e ∧ moment ev (length (tr n) - 1) = q (s n).
    Proof.
      intros Hbn Ho E. destruct (own_trace n e Hbn Ho E) as [r Er]. apply begun_tr in Hbn.
      split; [|by apply moment_ev]. apply (ev_tr (S n) _ (None, e, r)). rewrite Er.
      replace (S (length (tr n) - 1)) with (length (tr n)) by (destruct (tr n); [done|cbn; lia]).
      by apply list_lookup_middle.
    Qed.
    Lemma ticking_ev : ticking ev.
    Proof.
      intros k. destruct (grows (S k)) as (n & Hn & Hk). destruct Hw as [Ht _].
      destruct (Ht n) as (m & Hm & E); [by eapply begun_le|].
      destruct (own_ev m EvTick) as [H1 H2]; [by eapply begun_le; [|exact Hb]; lia|done|done|].
      exists (length (tr m) - 1)%nat. split; [|done]. pose proof (prefix_length _ _ (tr_le n m Hm)). lia.
    Qed.
    Lemma polling_ev : polling prof sched name clock ev.
    Proof.
      intros k t Ht. destruct (at_moment k) as (n & Hn & Hne & Em). rewrite Em in Ht.
      destruct Hw as [_ Hp]. destruct (Hp n t Ht) as (m & i & u & t' & Hm & E & Hi & Htid).
      destruct (own_ev m (EvTask i u)) as [H1 H2]; [eapply begun_le; [exact Hm|by apply begun_tr]|done|done|].
      exists (length (tr m) - 1)%nat, i, u, t'. pose proof (prefix_length _ _ (tr_le n m Hm)).
      split; [lia|]. split; [done|]. by rewrite H2.
    Qed.
  End begun.

  (** *** One submission *)
  Section submission.
    Context (n0 : nat) (C : call M) (j : job M) (ec : enqueue_config) (HC : submission C j ec).
    Context (Hcall : fe n0 = FCall C).
    Notation i := (length (cs (s n0))).
    Notation id := (jid j).
    Context (Hother : ∀ n k c, cs (s n) !! k = Some c → k ≠ i → ¬ meddles id (c_call c)).

    Lemma well_n d : runs_well i C j ec (s (S n0 + d)).
    Proof.
      induction d as [|d IH].
      - rewrite Nat.add_0_r, s_S, Hcall. split; [done|]. destruct HC as [->|[-> _]]; cbn.
        + eexists. split; [by apply list_lookup_middle|]. done.
        + destruct (Hl n0) as (_ & -> & _). eexists. split; [by apply list_lookup_middle|]. done.
      - rewrite Nat.add_succ_r, s_S. destruct (Hl (S n0 + d)%nat) as (H1 & H2 & H3).
        destruct (Hl (S (S n0 + d))%nat) as (_ & H2' & H3'). rewrite s_S in H2', H3'.
        apply well_step; try done. apply boxed_n.
    Qed.
    Lemma returns : ∃ m c r to k, (n0 <= m)%nat ∧ cs (s m) !! i = Some c ∧ c_at c = Returned r to ∧
      tr m !! S k = Some (Some i, EvEnqueue j ec, r).
    Proof.
      destruct (well_n 0) as (_ & c0 & E0 & _). rewrite Nat.add_0_r in E0.
      destruct (comes_over prof sched name h world_empty fe Hs _ _ _ E0) as (m & c & Hm & E & Ho).
      destruct (well_n (m - S n0)%nat) as (_ & c' & E' & _ & _ & H). replace (S n0 + (m - S n0))%nat with m in * by lia.
      rewrite E in E'. injection E' as <-. destruct Ho as [Ho|(r & to & Ho)]; rewrite Ho in H; [done|].
      destruct H as [k Hk]. exists m, c, r, to.
      destruct (once_n m) as [[_ Et]|(_ & r1 & l & Et & _)]; [by rewrite Et in Hk|].
      destruct k as [|k]; [by rewrite Et in Hk|]. exists k. split; [lia|done].
    Qed.
    (** Only this call submits the job, and nobody cancels it. *)
    Lemma get_id n k (i1 : string) (j1 : job M) o :
      tr n !! k = Some (o, EvGet i1, RJob (Some j1)) → jid j1 = i1.
    Proof.
      intros Hk. pose proof (proj2 (hist_after prof sched name h world_empty (map fe (seq 0 n))) k o _ _ Hk) as E.
      fold (s n) in E.
      assert (ok_hist prof sched name clock initial (take k (hist n))) as Ho.
      { pose proof (Hok n) as Ho. rewrite <-(take_drop k (hist n)) in Ho. by apply ok_hist_app in Ho as [Ho _]. }
      change (sys_run prof sched name h (sys_init world_empty) (take k (events_of (s n)))) with (after (take k (hist n))) in E.
      pose proof (all_at_after prof sched name clock _ Ho) as Ha.
      rewrite step_get in E. cbn in E. destruct (alive (after _)); [|done]. injection E as E.
      destruct (Ha i1) as [p Hp]. destruct p as [|j2|j2|t|j2|j2]; cbn in Hp.
      - destruct Hp as [Hp _]. by rewrite Hp in E.
      - destruct Hp as [[Hp _] [H _]]. rewrite Hp in E. by injection E as ->.
      - destruct Hp as [[Hp _] [H _]]. rewrite Hp in E. by injection E as ->.
      - destruct Hp as [[Hp _] [H _]]. rewrite Hp in E. by injection E as ->.
      - destruct Hp as [[Hp _] [H _]]. rewrite Hp in E. by injection E as ->.
      - destruct Hp as [[Hp _] [H _]]. rewrite Hp in E. by injection E as ->.
    Qed.
    Lemma others_leave n k o e r :
      tr n !! k = Some (o, e, r) → o ≠ Some i → calm e → ¬ submits id e ∧ e ≠ EvCancel id.
    Proof.
      intros Hk Ho Hcalm.
      pose proof (own_steps prof sched name h world_empty (map fe (seq 0 n)) k o e r Hk) as Hown. fold (s n) in Hown.
      destruct o as [k1|].
      - destruct Hown as [c Hc]. pose proof (Hother n k1 c Hc ltac:(congruence)) as Hm.
        destruct (calls_explained prof sched name h world_empty (map fe (seq 0 n)) k1 c Hc) as [Hf _]. fold (s n) in Hf.
        apply (steps_elem sched name) in Hk.
        destruct Hf as [Hf|[(k' & x & Hf & _)|(i1 & d & cx & ka & j1 & kb & x & Ec & Hf & _)]].
        + rewrite Hf in Hk. by apply elem_of_nil in Hk.
        + rewrite Hf in Hk. apply elem_of_list_singleton in Hk. injection Hk as -> -> ->.
          destruct (c_call c); cbn in *; (split; [tauto|try congruence]).
        + assert ((ka, EvGet i1, RJob (Some j1)) ∈ steps_of k1 (tr n)) as Hg by (rewrite Hf; left).
          apply (steps_elem sched name), get_id in Hg. rewrite Hf in Hk. rewrite Ec in Hm. cbn in Hm.
          apply elem_of_cons in Hk as [Hk|Hk].
          * injection Hk as -> -> ->. split; [by intros []|done].
          * apply elem_of_list_singleton in Hk. injection Hk as -> -> ->. split; [|done]. cbn.
            intros Hid. apply Hm. destruct cx as [x0|]; cbn in Hid; [right; eauto|]. left. rewrite <-Hid. symmetry. exact Hg.
      - destruct e; try done; (split; [by intros []|done]).
    Qed.

    Lemma executed B :
      comes_due clock j → Z.of_nat B <= i32_max → (∀ n, arrivals initial (hist n) <= B)%nat →
      (∃ m c to, (n0 <= m)%nat ∧ cs (s m) !! i = Some c ∧ c_at c = Returned (RUnit (Ok tt)) to) ∧
      ∃ m1 m2 x, (n0 <= m1 <= m2)%nat ∧ head (runs_of id (q (s m1))) = Some x ∧ data x = data j ∧
        tasks_of id (q (s m2)) = [].
    Proof.
      intros Hdue HB Harr. destruct returns as (N & c & r & to & k & HN & Ei & Eat & Hk).
      assert (begun (s N) = true) as Hb. { apply begun_tr. intros E. by rewrite E in Hk. }
      set (v := ev N Hb).
      pose proof (ev_tr N Hb N k _ Hk) as Ek. cbn in Ek. fold v in Ek.
      assert (∀ n, n ≠ k → ¬ submits id (v n) ∧ v n ≠ EvCancel id) as Hoth.
      { intros n Hn. pose proof (calm_ev N Hb n) as Hcalm. destruct (tr_ev N Hb n) as (m & [[o e] r1] & Hx & Ee).
        fold v in Hcalm, Ee. cbn in Ee. rewrite Ee in *. eapply others_leave; [exact Hx| |done].
        intros ->. apply Hn.
        assert (∃ L, (N <= L)%nat ∧ (m <= L)%nat) as (L & HL1 & HL2) by (exists (N + m)%nat; lia).
        destruct (tr_le N L HL1) as [l1 E1]. destruct (tr_le m L HL2) as [l2 E2].
        assert (tr L !! S k = Some (Some i, EvEnqueue j ec, r)) as Hk1 by (rewrite E1; by apply lookup_app_l_Some).
        assert (tr L !! S n = Some (Some i, e, r1)) as Hk2 by (rewrite E2; by apply lookup_app_l_Some).
        assert (is_Some (cs (s L) !! i)) as [c1 Hc1].
        { exact (own_steps prof sched name h world_empty (map fe (seq 0 L)) _ _ _ _ Hk1). }
        destruct (calls_explained prof sched name h world_empty (map fe (seq 0 L)) _ c1 Hc1) as [Hf _]. fold (s L) in Hf.
        assert (c_call c1 = C) as Ec1.
        { assert (n0 < L)%nat as HL.
          { destruct (decide (n0 < L)%nat); [done|]. apply lookup_lt_Some in Hc1.
            replace L with n0 in Hc1 by lia. lia. }
          destruct (well_n (L - S n0)%nat) as (_ & c2 & E3 & E4 & _). replace (S n0 + (L - S n0))%nat with L in E3 by lia.
          rewrite Hc1 in E3. by injection E3 as ->. }
        rewrite Ec1 in Hf. apply (steps_elem sched name) in Hk1, Hk2.
        destruct Hf as [Hf|[(k' & x & Hf & _)|(i1 & d & cx & ka & j1 & kb & x & E3 & _)]];
          [..|rewrite E3 in HC; by destruct HC as [?|[? _]]].
        - rewrite Hf in Hk1. by apply elem_of_nil in Hk1.
        - rewrite Hf in Hk1, Hk2. apply elem_of_list_singleton in Hk1, Hk2. congruence. }
      pose proof (healthy_ev N Hb) as Hh. pose proof (ticking_ev N Hb) as Ht. pose proof (polling_ev N Hb) as Hp.
      fold v in Hh, Ht, Hp.
      set (es1 := EvStart :: map v (seq 0 k)).
      assert (ok_hist prof sched name clock initial es1) as Hok1 by apply (Hh k).
      destruct (absent_until id es1 Hok1) as [Habs Hnr].
      { constructor; [by intros []|]. apply list.Forall_forall. intros e He. apply elem_of_list_fmap in He as (n & -> & Hn).
        apply elem_of_seq in Hn. apply Hoth. lia. }
      change (after es1) with (moment v k) in Habs, Hnr.
      pose proof (proj1 (proj2 (Hh k))) as Hal.
      destruct (submit_new prof sched name clock (moment v k) j ec Hal Habs) as (Hr & (j' & t & Hst & Hrb & _) & Hq & _).
      assert (moment v (S k) = (step (moment v k) (EvEnqueue j ec)).1) as ES by (by rewrite (LiveFacts.s_S prof sched name clock), Ek).
      split.
      { exists N, c, to. split; [done|]. split; [done|]. rewrite Eat. f_equal.
        rewrite (proj2 (hist_after prof sched name h world_empty (map fe (seq 0 N))) (S k) _ _ _ Hk), <-Hr.
        fold (s N). do 2 f_equal.
        change (sys_run prof sched name h (sys_init world_empty) (take (S k) (events_of (s N)))) with (after (take (S k) (hist N))).
        unfold SpecLive.moment. f_equal.
        rewrite (hist_ev N Hb N) by (by apply begun_tr). fold v. cbn [take]. f_equal.
        apply lookup_lt_Some in Hk. replace (length (tr N) - 1)%nat with (k + (length (tr N) - 1 - k))%nat by lia.
        rewrite seq_app, map_app, take_app_alt; [done|]. by rewrite map_length, seq_length. }
      destruct (fair_progress_later prof sched name clock v Hh Ht Hp (S k) id j' B) as (n1 & n2 & Hn & Hr1 & Hr2).
      - rewrite ES, Hq. destruct (decide _); [left|done].
      - by rewrite ES.
      - destruct Hrb as (_ & _ & Hty & _). cbn in Hty. unfold comes_due in Hdue. unfold due.
        destruct Hty as [|t0 t1 [_ Hc]|e n n' rr kk mm oo oo' [_ Hc] Hoo].
        + by exists 0%nat.
        + destruct Hdue as [k0 Hd]. exists k0. intros k1 Hk1. specialize (Hd k1 Hk1). lia.
        + cbn in Hdue. destruct Hdue as ([k0 Hd] & Hm & ->). exists k0. intros k1 Hk1. specialize (Hd k1 Hk1).
          split; [lia|]. split; [done|]. cbn in *. by destruct oo'.
      - intros n Hn. apply Hoth. lia.
      - done.
      - intros d. destruct (at_moment N Hb (S k + d)%nat) as (m & Hm & Hne & _).
        specialize (Harr m). rewrite (hist_ev N Hb m Hne) in Harr. fold v in Harr. rewrite Hm in Harr.
        replace (S (S k + d) - 1)%nat with (S k + d)%nat in Harr by lia.
        rewrite seq_app, map_app, app_comm_cons, (arrivals_app prof sched name clock) in Harr.
        pose proof (arrivals_bound initial (EvStart :: map v (seq 0 (S k)))) as Hab.
        change (go initial (EvStart :: map v (seq 0 (S k)))) with (moment v (S k)) in Hab, Harr.
        change (length (qlist (sw initial) Queued)) with 0%nat in Hab. rewrite Nat.add_0_l in Harr. lia.
      - destruct (at_moment N Hb n1) as (m1 & L1 & Ne1 & M1). destruct (at_moment N Hb n2) as (m2 & L2 & Ne2 & M2).
        fold v in M1, M2. rewrite M1 in Hr1. rewrite M2 in Hr2.
        set (es2 := map v (seq (S k) (n1 - S k))).
        assert (EvStart :: map v (seq 0 n1) = es1 ++ EvEnqueue j ec :: es2) as Ees.
        { unfold es1, es2. cbn [app]. f_equal. replace n1 with (k + S (n1 - S k))%nat at 1 by lia.
          rewrite seq_app, map_app. cbn [seq map]. by rewrite Nat.add_0_l, Ek. }
        assert (moment v n1 = after (es1 ++ EvEnqueue j ec :: es2)) as Em1 by (unfold SpecLive.moment; by rewrite Ees).
        assert (∃ x, head (runs_of id (q (s m1))) = Some x) as [x Hx].
        { destruct (runs_of id (q (s m1))) as [|x l]; [cbn in Hr1; lia|]. by exists x. }
        assert (data x = data j) as Hd.
        { destruct (first_request prof sched name clock j es1 ec es2) with (r := x) as [Hd _]; try done.
          - rewrite <-Ees. apply (Hh n1).
          - split; [done|]. by left.
          - apply list.Forall_forall. intros e He. apply elem_of_list_fmap in He as (n & -> & Hn').
            apply elem_of_seq in Hn'. apply Hoth. lia.
          - unfold new_runs. change (after es1) with (moment v k). rewrite Hnr. cbn [length drop]. by rewrite <-Em1, M1. }
        (* the instants are after the call, and in order *)
        assert (n0 <= m1)%nat as Hm1.
        { destruct (decide (n0 <= m1)%nat) as [|Hlt]; [done|]. exfalso.
          destruct (tr_le m1 n0 ltac:(lia)) as [l El].
          assert (S k < length (tr m1))%nat as Hlk by lia. apply lookup_lt_is_Some in Hlk as [y Hy].
          pose proof (tr_agree N m1 _ _ _ Hk Hy) as <-.
          assert (tr n0 !! S k = Some (Some i, EvEnqueue j ec, r)) as Hy0 by (rewrite El; by apply lookup_app_l_Some).
          destruct (own_steps prof sched name h world_empty (map fe (seq 0 n0)) _ _ _ _ Hy0) as [cc Hcc].
          apply lookup_lt_Some in Hcc. fold (s n0) in Hcc. lia. }
        destruct (decide (n1 = n2)) as [->|Hn12].
        + exists m1, m1, x. split; [lia|]. split; [done|]. split; [done|]. congruence.
        + exists m1, m2, x. split; [|done]. split; [done|]. destruct (decide (m1 <= m2)%nat) as [|Hlt]; [done|].
          pose proof (prefix_length _ _ (tr_le m2 m1 ltac:(lia))). lia.
    Qed.
  End submission.
End exec.
