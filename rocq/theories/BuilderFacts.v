From Verif Require Import SpecBuilder JsonFacts BackendFacts WorldFacts MicroFacts LifeFacts HistFacts SubmitFacts LifeProps ListFacts ApiFacts PickFacts StarveFacts TimeFacts RetryFacts.

Section facts.
  Context {M : Type}.
  Context (sched : string → option (time → option time)).
  Context (clk : nat → time).
  Notation mh := (mem_h clk).
  Notation built := (built sched clk).
  Notation impossible := (impossible sched).
  Notation impossible_in := (impossible_in sched clk).
  Implicit Types (bs : list bcall) (j : job M) (w : world).

  Lemma run_bind {A B} (p : prog A) (f : A → prog B) w :
    run mh (bind p f) w =
    match run mh p w with
    | (w', Done a) => run mh (f a) w'
    | (w', Panicked) => (w', Panicked)
    | (w', Diverged) => (w', Diverged)
    end.
  Proof.
    revert w. induction p as [a| | |X e k IH]; intros w; [done..|]. cbn. destruct (mh X e w) as [w' x]. apply IH.
  Qed.

  Definition readers (b : bcall) : nat := readings [b].
  Lemma readings_cons b bs : readings (b :: bs) = (readers b + readings bs)%nat.
  Proof. unfold readers, readings. by destruct b. Qed.
  Lemma readings_app bs1 bs2 : readings (bs1 ++ bs2) = (readings bs1 + readings bs2)%nat.
  Proof. unfold readings. by rewrite omap_app, app_length. Qed.

  (** One call. *)
  Lemma call_run j b w :
    let k := reads w in
    match run mh (build_call sched j b) w with
    | (w', Done j') =>
        ¬ impossible (clk k) b ∧ reads w' = (k + readers b)%nat ∧ st w' = st w ∧ log w' = log w ∧
        match b with
        | BContext c => j' = Job c (data j)
        | _ => built k (ctx j) (data j) [b] j'
        end
    | (_, Panicked) => impossible (clk k) b
    | (_, Diverged) => False
    end.
  Proof.
    cbv zeta. destruct w as [s k lg]. destruct b as [id|c|t|t|d|e|r]; cbn [build_call].
    - cbn. unfold SpecBuilder.built, readers. cbn. repeat (split; [first [done|lia]|]). left. split; [|done]. repeat constructor. by intros [].
    - cbn. unfold readers. cbn. repeat (split; [first [done|lia]|]). by destruct j.
    - cbn. unfold SpecBuilder.built, readers. cbn. repeat (split; [first [done|lia]|]). right. exists [], (BType t), []. split; [done|]. split; [constructor|]. constructor.
    - cbn. unfold SpecBuilder.built, readers. cbn. repeat (split; [first [done|lia]|]). right. exists [], (BScheduleAt t), []. split; [done|]. split; [constructor|]. constructor.
    - cbn. unfold job_delay, dt_add. cbn [reads].
      destruct (dt_min <=? clk k + d) eqn:E1; [destruct (clk k + d <=? dt_max) eqn:E2|]; cbn.
      + split; [lia|]. unfold SpecBuilder.built, readers. cbn. repeat (split; [first [done|lia]|]). right. exists [], (BDelay d), [].
        split; [done|]. split; [constructor|]. cbn. rewrite Nat.add_0_r. constructor.
      + lia.
      + lia.
    - unfold job_cron, new_cron. destruct (sched e) as [f|] eqn:Ee; cbn; [|done].
      rewrite Ee. split; [done|]. unfold SpecBuilder.built, readers. cbn. repeat (split; [first [done|lia]|]). right. exists [], (BCron e), [].
      split; [done|]. split; [constructor|]. cbn. rewrite Nat.add_0_r.
      destruct (f (clk k)) as [sl|] eqn:Ef; cbn; [by eapply tg_cron|by eapply tg_cron_over].
    - cbn. unfold SpecBuilder.built, readers. cbn. repeat (split; [first [done|lia]|]). left. split; [|done]. repeat constructor. by intros [].
  Qed.

  Lemma last_given_app {A} (f : bcall → option A) bs1 bs2 :
    last_given f (bs1 ++ bs2) = match last_given f bs2 with Some x => Some x | None => last_given f bs1 end.
  Proof. unfold last_given. rewrite omap_app, list.last_app. by destruct (list.last _). Qed.

  Lemma built_app k c0 (d : M) bs1 j1 bs2 j2 :
    built k c0 d bs1 j1 → built (k + readings bs1) (ctx j1) d bs2 j2 → built k c0 d (bs1 ++ bs2) j2.
  Proof.
    intros (D1&I1&R1&S1&C1&E1&U1&O1&A1&N1&T1) (D2&I2&R2&S2&C2&E2&U2&O2&A2&N2&T2).
    split; [done|]. cbv zeta in *. rewrite !last_given_app.
    split; [rewrite I2, I1; by destruct (last_given id_given bs2)|].
    split; [rewrite R2, R1; by destruct (last_given retry_given bs2)|].
    do 7 (split; [congruence|]).
    destruct T2 as [[F2 T2]|(a&b&e&->&F2&T2)].
    - destruct T1 as [[F1 T1]|(a&b&e&->&F1&T1)].
      + left. split; [by apply Forall_app|congruence].
      + right. exists a, b, (e ++ bs2). rewrite <-app_assoc. split; [done|]. split; [by apply Forall_app|]. by rewrite T2.
    - right. exists (bs1 ++ a), b, e. rewrite <-app_assoc. split; [done|]. split; [done|].
      rewrite readings_app, Nat.add_assoc. done.
  Qed.

  Lemma built_data k c0 (d : M) bs j : built k c0 d bs j → data j = d.
  Proof. by intros []. Qed.

  Lemma built_nil k c0 (d : M) j : data j = d → ctx j = c0 → built k c0 d [] j.
  Proof.
    intros <- <-. unfold SpecBuilder.built. cbn. do 10 (split; [done|]). left. split; [constructor|done].
  Qed.

  Lemma calls_run j bs w :
    Forall (λ b, ¬ sets_context b) bs →
    let k := reads w in
    match run mh (build_calls sched j bs) w with
    | (w', Done j') =>
        ¬ impossible_in k bs ∧ reads w' = (k + readings bs)%nat ∧ st w' = st w ∧ log w' = log w ∧
        built k (ctx j) (data j) bs j'
    | (_, Panicked) => impossible_in k bs
    | (_, Diverged) => False
    end.
  Proof.
    cbv zeta. revert j w. induction bs as [|b bs IH]; intros j w Hc.
    - cbn. split; [by intros ([]&?&?&?&?)|]. split; [by rewrite Nat.add_0_r|]. split; [done|]. split; [done|]. by apply built_nil.
    - apply list.Forall_cons in Hc as [Hb Hc]. cbn [build_calls]. rewrite run_bind.
      pose proof (call_run j b w) as H. cbv zeta in H. destruct (run mh (build_call sched j b) w) as [w1 [j1| |]]; [|..].
      + destruct H as (Hi & Hr & Hs & Hl & Hj).
        assert (built (reads w) (ctx j) (data j) [b] j1) as Hj' by (by destruct b). clear Hj.
        specialize (IH j1 w1 Hc). destruct (run mh (build_calls sched j1 bs) w1) as [w2 [j2| |]]; [|..].
        * destruct IH as (Hi2 & Hr2 & Hs2 & Hl2 & Hj2). split.
          { intros (bs1 & b' & bs2 & E & Hx). destruct bs1 as [|b1 bs1]; injection E as <- E.
            - unfold readings in Hx. cbn in Hx. rewrite Nat.add_0_r in Hx. done.
            - apply Hi2. exists bs1, b', bs2. split; [done|]. rewrite readings_cons, Nat.add_assoc, <-Hr in Hx. done. }
          split; [rewrite Hr2, Hr, readings_cons; lia|]. split; [congruence|]. split; [congruence|].
          rewrite (built_data _ _ _ _ _ Hj') in Hj2. rewrite Hr in Hj2.
          exact (built_app _ _ _ [b] j1 bs j2 Hj' Hj2).
        * destruct IH as (bs1 & b' & bs2 & -> & Hx). exists (b :: bs1), b', bs2. split; [done|].
          rewrite readings_cons, Nat.add_assoc, <-Hr. done.
        * done.
      + exists [], b, bs. split; [done|]. unfold readings. cbn. by rewrite Nat.add_0_r.
      + done.
  Qed.

  Lemma build_calls_app j bs1 bs2 :
    ∀ w, run mh (build_calls sched j (bs1 ++ bs2)) w =
         run mh (bind (build_calls sched j bs1) (λ j', build_calls sched j' bs2)) w.
  Proof.
    revert j. induction bs1 as [|b bs1 IH]; intros j w; [done|]. cbn [app build_calls]. rewrite !run_bind.
    destruct (run mh (build_call sched j b) w) as [w1 [j1| |]] eqn:E; [|done..].
    by rewrite IH, !run_bind.
  Qed.

  Lemma new_run uuid (d : M) bs w :
    run mh (build sched uuid d bs) w =
    run mh (build_calls sched (job_new uuid (ms_of (clk (reads w))) d) bs) (World (st w) (S (reads w)) (log w)).
  Proof. by destruct w. Qed.

  Lemma build_run uuid (d : M) bs w :
    Forall (λ b, ¬ sets_context b) bs →
    let k := reads w in
    (run mh (build sched uuid d bs) w).2 = Panicked ∧ impossible_in (S k) bs ∨
    ∃ j, (run mh (build sched uuid d bs) w).2 = Done j ∧ ¬ impossible_in (S k) bs ∧
         built (S k) (context_new uuid (ms_of (clk k))) d bs j.
  Proof.
    intros Hc k. rewrite new_run.
    pose proof (calls_run (job_new uuid (ms_of (clk (reads w))) d) bs (World (st w) (S (reads w)) (log w)) Hc) as H.
    cbv zeta in H. cbn [reads] in H. destruct (run mh _ _) as [w' [j| |]]; [|..].
    - right. exists j. split; [done|]. split; [apply H|]. apply H.
    - by left.
    - done.
  Qed.

  (** With set_context: only the calls after the last one count. *)
  Lemma build_context uuid (d : M) bs1 c bs2 w j :
    Forall (λ b, ¬ sets_context b) bs2 →
    (run mh (build sched uuid d (bs1 ++ BContext c :: bs2)) w).2 = Done j →
    built (S (reads w) + readings bs1) c d bs2 j.
  Proof.
    intros Hc. rewrite new_run, build_calls_app, run_bind.
    assert (∀ j0 w0 bs, match run mh (build_calls sched j0 bs) w0 with
      | (w', Done j') => reads w' = (reads w0 + readings bs)%nat ∧ data j' = data j0 | _ => True end) as Hrd.
    { intros j0 w0 bs. revert j0 w0. induction bs as [|b bs IH]; intros j0 w0.
      - cbn. by rewrite Nat.add_0_r.
      - cbn [build_calls]. rewrite run_bind. pose proof (call_run j0 b w0) as H. cbv zeta in H.
        destruct (run mh (build_call sched j0 b) w0) as [w1 [j1| |]]; [|done..].
        destruct H as (_ & Hr & _ & _ & Hj).
        assert (data j1 = data j0) as Hd by (destruct b; first [by rewrite Hj|by destruct Hj]).
        specialize (IH j1 w1). destruct (run mh (build_calls sched j1 bs) w1) as [w2 [j2| |]]; [|done..].
        destruct IH as [IH1 IH2]. rewrite IH1, IH2, Hr, readings_cons. split; [lia|done]. }
    specialize (Hrd (job_new uuid (ms_of (clk (reads w))) d) (World (st w) (S (reads w)) (log w)) bs1).
    destruct (run mh _ _) as [w1 [j1| |]]; [|done..]. destruct Hrd as [Hr Hd]. cbn [reads data job_new] in Hr, Hd.
    cbn [build_calls build_call bind]. intros Hj.
    pose proof (calls_run (set_ctx j1 c) bs2 w1 Hc) as H. cbv zeta in H.
    destruct (run mh (build_calls sched (set_ctx j1 c) bs2) w1) as [w2 [j2| |]]; [|done..].
    injection Hj as <-. destruct H as (_&_&_&_&H). cbn [set_ctx ctx data] in H. rewrite Hr, Hd in H. exact H.
  Qed.
End facts.

Section first.
  Context {M : Type} `{SM : Serde M} {SO : SerdeOk M}.
  Context (prof : profile).
  Context (sched : string → option (time → option time)).
  Context (name : string).
  Context (clock : nat → time).
  Notation ok_hist := (ok_hist prof sched name clock).
  Notation after := (after prof sched name clock).
  Notation picked_at := (picked_at clock).

  (** The first execution after a submission is picked when it is due, with the submitted type. *)
  Lemma first_picked (j0 : job M) es1 ec es2 :
    ok_hist initial (es1 ++ EvEnqueue j0 ec :: es2) → queues_it (after es1) j0 ec →
    Forall (λ e, ¬ submits (jid j0) e) es2 →
    let s := after es1 in let s' := after (es1 ++ EvEnqueue j0 ec :: es2) in
    ∀ r, head (new_runs (jid j0) s s') = Some r →
      jtype (ctx r) = norm_type (jtype (ctx j0)) ∧ ∃ k, picked_at (reads (sw s)) (reads (sw s')) r k.
  Proof.
    intros Hok Hq HE s s' r Hr. set (T := norm_type (jtype (ctx j0))).
    set (o := λ new : list (job M), ∀ r, head new = Some r → jtype (ctx r) = T).
    set (q := λ (new : list (job M)) (k : nat) (t : job_type) (r : option retry), (new = [] → t = T) ∧ o new).
    set (rr := λ (new : list (job M)) (k : nat) (t : job_type) (r : option retry), new ≠ [] ∧ o new).
    destruct (scheme_submit prof sched name clock (jid j0) (reads (sw s)) (λ e, ¬ submits (jid j0) e)
      q rr (λ new k t r st, q new k t r) o) with (es1 := es1) (j := j0) (ec := ec) (es2 := es2) as (p & _ & Hs); try done.
    - by intros ? ? ? ? (?&?).
    - by intros ? ? ? ? (?&?).
    - intros new k r1 kp (H1&H2) Hp Hid. split; [by destruct new|]. intros r2.
      destruct new as [|r3 new]; cbn; [|by apply H2]. intros [= <-]. by apply H1.
    - intros new k j i1 u k1 v _ (H1&H2) Hj. destruct v; try done.
    - apply scheme_new in Hs as (_ & Hf & Hp). fold s s' in Hf, Hp.
      assert (o (new_runs (jid j0) s s')) as Ho.
      { destruct p; try done; cbn in Hp; try (by apply Hp). destruct Hp as [_ Hp]. destruct (t_phase t); try (by apply Hp). }
      split; [by apply Ho|]. destruct (new_runs (jid j0) s s') as [|r1 l]; [done|]. injection Hr as ->.
      apply list.Forall_cons in Hf as [[_ H] _]. exact H.
  Qed.

  Lemma first_request (j0 : job M) es1 ec es2 :
    ok_hist initial (es1 ++ EvEnqueue j0 ec :: es2) → queues_it (after es1) j0 ec →
    Forall (λ e, ¬ submits (jid j0) e) es2 →
    let s := after es1 in let s' := after (es1 ++ EvEnqueue j0 ec :: es2) in
    ∀ r, head (new_runs (jid j0) s s') = Some r →
      data r = data j0 ∧ jid r = jid j0 ∧ created_at (ctx r) = created_at (ctx j0) ∧
      type_read (jtype (ctx j0)) (jtype (ctx r)) ∧ retry_read (jretry (ctx j0)) (jretry (ctx r)).
  Proof.
    intros Hok [Hal Hq] HE s s' r Hr.
    apply ok_hist_app in Hok as [Hok1 [He Hok2]].
    change (sys_run prof sched name (mem_h clock) initial es1) with s in He, Hok2.
    pose proof (all_at_after prof sched name clock es1 Hok1) as Hall. fold s in Hall.
    destruct (at_submitted prof sched name clock s j0 ec Hall He Hal Hq) as (t & Hat & Hrs).
    destruct (life_step prof sched name clock s _ He Hall) as [Hall' _].
    assert (s' = sys_run prof sched name (mem_h clock) (sys_step prof sched name (mem_h clock) s (EvEnqueue j0 ec)).1 es2) as Es.
    { unfold s', Spec.after. by rewrite go_app, go_cons. }
    set (P := λ r : job M, data r = data j0 ∧ jid r = jid j0 ∧ created_at (ctx r) = created_at (ctx j0) ∧
      type_read (jtype (ctx j0)) (jtype (ctx r)) ∧ retry_read (jretry (ctx j0)) (jretry (ctx r))).
    change (P r).
    destruct (next_run_with prof sched name clock P (sys_step prof sched name (mem_h clock) s (EvEnqueue j0 ec)).1
      (jid j0) (PQueued (norm_job (enq j0 t))) es2) as [E|(j' & rest & E & HP)]; try done.
    - pose proof (read_back_norm (enq j0 t)) as (R1&R2&R3&_&R5&R6&_). done.
    - rewrite <-Es, Hrs in E. unfold new_runs in Hr. rewrite E, drop_all in Hr. done.
    - rewrite <-Es, Hrs in E. unfold new_runs in Hr. rewrite E, drop_app in Hr. cbn in Hr. by injection Hr as <-.
  Qed.
End first.

Section built_runs.
  Context {M : Type} `{SM : Serde M} {SO : SerdeOk M}.
  Context (prof : profile).
  Context (sched : string → option (time → option time)).
  Context (name : string).
  Context (clock clk : nat → time).
  Notation ok_hist := (ok_hist prof sched name clock).
  Notation after := (after prof sched name clock).
  Notation picked_at := (picked_at clock).

  (** The last call that sets the type decides. *)
  Lemma built_type k c0 (d : M) bs1 b bs2 j :
    built sched clk k c0 d (bs1 ++ b :: bs2) j → sets_type b → Forall (λ b, ¬ sets_type b) bs2 →
    type_given sched (clk (k + readings bs1)%nat) b (jtype (ctx j)).
  Proof.
    intros H Hb Hf.
    destruct H as (_&_&_&_&_&_&_&_&_&_&[[Hn _]|(a&b'&e&E&Hf'&Ht)]).
    { apply Forall_app in Hn as [_ Hn]. by apply list.Forall_cons in Hn as [Hn _]. }
    assert (bs1 = a ∧ b = b' ∧ bs2 = e) as (-> & -> & ->); [|done].
    assert (sets_type b') as Hb' by (by inversion Ht). clear Ht.
    revert a E. induction bs1 as [|x bs1 IH]; intros [|y a] E; cbn in E.
    - by injection E.
    - injection E as <- ->. apply Forall_app in Hf as [_ Hf]. by apply list.Forall_cons in Hf as [Hf _].
    - injection E as <- <-. apply Forall_app in Hf' as [_ Hf']. by apply list.Forall_cons in Hf' as [Hf' _].
    - injection E as <- E. destruct (IH _ E) as (-> & -> & ->). done.
  Qed.

  Lemma done_built uuid (d : M) bs w j :
    Forall (λ b, ¬ sets_context b) bs →
    (run (mem_h clk) (build sched uuid d bs) w).2 = Done j →
    built sched clk (S (reads w)) (context_new uuid (ms_of (clk (reads w)))) d bs j.
  Proof.
    intros Hc Hj. destruct (build_run sched clk uuid d bs w Hc) as [[E _]|(j' & E & _ & H)]; rewrite E in Hj; [done|].
    by injection Hj as <-.
  Qed.

  Lemma delay_runs uuid (d : M) bs1 x bs2 w j es1 ec es2 :
    Forall (λ b, ¬ sets_context b) (bs1 ++ BDelay x :: bs2) → Forall (λ b, ¬ sets_type b) bs2 →
    (run (mem_h clk) (build sched uuid d (bs1 ++ BDelay x :: bs2)) w).2 = Done j →
    ok_hist initial (es1 ++ EvEnqueue j ec :: es2) → queues_it (after es1) j ec →
    Forall (λ e, ¬ submits (jid j) e) es2 →
    let s := after es1 in let s' := after (es1 ++ EvEnqueue j ec :: es2) in
    ∀ r, head (new_runs (jid j) s s') = Some r →
      ∃ k, picked_at (reads (sw s)) (reads (sw s')) r k ∧
           clk (S (reads w) + readings bs1)%nat + x - 1000 < clock k.
  Proof.
    intros Hc Hf Hj Hok Hq HE s s' r Hr. apply done_built in Hj; [|done].
    pose proof (built_type _ _ _ _ _ _ _ Hj Logic.I Hf) as Ht. 
    assert (jtype (ctx j) = ScheduledAt (clk (S (reads w) + readings bs1)%nat + x)) as Ej by (by inversion Ht).
    destruct (start_time prof sched name clock j _ es1 ec es2 Ej Hok Hq HE 0%nat r) as (k & t & Hp & Hcut & Hlt).
    - fold s s'. rewrite <-Hr. by destruct (new_runs (jid j) s s').
    - by left.
    - exists k. split; [done|]. destruct Hcut as [_ Hcut]. lia.
  Qed.

  Lemma cron_runs uuid (d : M) bs1 e bs2 w j es1 ec es2 :
    Forall (λ b, ¬ sets_context b) (bs1 ++ BCron e :: bs2) → Forall (λ b, ¬ sets_type b) bs2 →
    (run (mem_h clk) (build sched uuid d (bs1 ++ BCron e :: bs2)) w).2 = Done j →
    ok_hist initial (es1 ++ EvEnqueue j ec :: es2) → queues_it (after es1) j ec →
    Forall (λ e, ¬ submits (jid j) e) es2 →
    let s := after es1 in let s' := after (es1 ++ EvEnqueue j ec :: es2) in
    let now := clk (S (reads w) + readings bs1)%nat in
    ∀ r, head (new_runs (jid j) s s') = Some r →
      ∃ f k, sched e = Some f ∧ picked_at (reads (sw s)) (reads (sw s')) r k ∧
             cut_us (default now (f now)) (slot_of r) ∧ slot_of r <= clock k.
  Proof.
    intros Hc Hf Hj Hok Hq HE s s' now r Hr. apply done_built in Hj; [|done].
    pose proof (built_type _ _ _ _ _ _ _ Hj Logic.I Hf) as Ht. fold now in Ht.
    destruct (first_picked prof sched name clock j es1 ec es2 Hok Hq HE r Hr) as (E & k & Hp).
    assert (∃ f, sched e = Some f ∧ jtype (ctx j) = Cron e (default now (f now)) 1 cron_context_default) as (f & Hs & Ej).
    { inversion Ht as [| | |? f sl Hs Hn E1|? f Hs Hn E1]; subst; exists f; (split; [done|]); rewrite Hn; done. }
    exists f, k. split; [done|]. split; [done|].
    rewrite Ej in E. cbn in E. unfold slot_of. rewrite E. split; [apply cut_us_trunc|].
    destruct Hp as (_&_&Hd&_). unfold due in Hd. rewrite E in Hd. apply Hd.
  Qed.

  Lemma over_due uuid (d : M) bs1 e f bs2 w j :
    Forall (λ b, ¬ sets_context b) (bs1 ++ BCron e :: bs2) → Forall (λ b, ¬ sets_type b) bs2 →
    (run (mem_h clk) (build sched uuid d (bs1 ++ BCron e :: bs2)) w).2 = Done j →
    let now := clk (S (reads w) + readings bs1)%nat in
    sched e = Some f → f now = None → ∀ t, now <= t → due j t.
  Proof.
    intros Hc Hf Hj now Hs Hn t Ht. apply done_built in Hj; [|done].
    pose proof (built_type _ _ _ _ _ _ _ Hj Logic.I Hf) as Hg. fold now in Hg.
    unfold due. inversion Hg as [| | |? f' sl Hs' Hn' E1|? f' Hs' Hn' E1]; subst; [congruence|]. cbn.
    split; [done|]. by split.
  Qed.
End built_runs.
