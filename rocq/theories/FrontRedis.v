(** A process with its callers, and one with its timers, does on Redis what it does on the in-memory store. *)
From Verif Require Import Spec JsonFacts BackendFacts RedisFacts WorldFacts MicroFacts SpecFrontRedis RedisLive
  ClientFacts LifeFacts HistFacts EndFacts EndLive TimerFacts.
Open Scope Z_scope.

Section front.
  Context {M : Type} `{SM : Serde M}.
  Context (prof : profile).
  Context (sched : string → option (time → option time)).
  Context (name : string).
  Context (clock : nat → time).
  Notation mstep := (fstep prof sched name (mem_h clock)).
  Notation rstep := (fstep prof sched name (redis_h clock)).

  Definition same_front (f : front M world) (g : front M rworld) : Prop :=
    same_sys name (q f) (q g) ∧ known f = known g ∧ begun f = begun g ∧ q_box f = q_box g ∧
    aj_up f = aj_up g ∧ aj_box f = aj_box g ∧ cs f = cs g ∧ trace f = trace g.
  Lemma same_alive (s : sys world M) (r : sys rworld M) : same_sys name s r → alive s = alive r.
  Proof. by intros (_&_&_&?&_). Qed.
  Lemma queue_step_same f g o b e : same_front f g →
    same_front (queue_step prof sched name (mem_h clock) f o b e) (queue_step prof sched name (redis_h clock) g o b e).
  Proof.
    intros (Hq & H1 & H2 & H3 & H4 & H5 & H6 & H7). unfold queue_step.
    destruct (step_same prof sched name clock (q f) (q g) e Hq) as [Er Hs].
    destruct (sys_step prof sched name (mem_h clock) (q f) e) as [s r], (sys_step prof sched name (redis_h clock) (q g) e) as [s' r'].
    cbn [fst snd] in *. subst r'. unfold settle. rewrite <-(same_alive _ _ Hs), <-H1, <-H4, <-H5, <-H6, <-H7.
    by destruct (alive s).
  Qed.
  Lemma process_dies_same f g e : same_front f g →
    same_front (process_dies prof sched name (mem_h clock) f e) (process_dies prof sched name (redis_h clock) g e).
  Proof.
    intros (Hq & H1 & H2 & H3 & H4 & H5 & H6 & H7). unfold process_dies.
    destruct (step_same prof sched name clock (q f) (q g) e Hq) as [Er Hs].
    destruct (sys_step prof sched name (mem_h clock) (q f) e) as [s r], (sys_step prof sched name (redis_h clock) (q g) e) as [s' r'].
    cbn [fst snd] in *. subst r'. by rewrite <-H6, <-H7.
  Qed.
  Lemma fstep_same f g x : same_front f g → same_front (mstep f x) (rstep g x).
  Proof.
    intros Hf. pose proof Hf as (Hq & H1 & H2 & H3 & H4 & H5 & H6 & H7).
    assert (∀ l l', l = l' → same_front (set_cs f l) (set_cs g l')) as Hcs by (by intros l ? <-).
    assert (mailbox_open f = mailbox_open g) as Hmo by (unfold mailbox_open; by rewrite H1, H2, (same_alive _ _ Hq)).
    pose proof (same_alive _ _ Hq) as Ha.
    assert (same_front (aj_gone f) (aj_gone g)) as Hgone by (unfold aj_gone, same_front; cbn; by rewrite H6, H7).
    destruct x as [c|i| | | | |e| |o k]; cbn [fstep].
    - destruct c; try (apply Hcs; by rewrite H6, H7). rewrite <-H4. destruct (aj_up f); [|apply Hcs; by rewrite H6, H7].
      unfold same_front. cbn. by rewrite H5, H6, H7.
    - rewrite <-H6. destruct (cs f !! i) as [c|]; [|done]. rewrite <-H1, <-H4, <-H7, <-Hmo.
      destruct (c_at c); try done.
      + destruct (known f); [by apply Hcs|]. destruct (inits c); by apply Hcs.
      + destruct (aj_up f) eqn:Eu; [|by apply Hcs]. unfold same_front. cbn. by rewrite H5.
      + destruct (mailbox_open f); [|by apply Hcs]. unfold same_front. cbn. by rewrite H3.
    - rewrite <-H5, <-H6, <-H1, <-H4. destruct (aj_box f) as [|i b]; [done|].
      destruct (cs f !! i) as [c|]; [|done]. destruct (c_at c); try done.
      destruct (known f); done.
    - done.
    - rewrite <-H1, <-H2, <-H3. destruct (known f && negb (begun f)); [by apply queue_step_same|done].
    - rewrite <-H3, <-H6, <-H2, <-Ha. destruct (q_box f) as [|i b]; [done|]. destruct (cs f !! i) as [c|]; [|done].
      destruct (begun f && alive (q f)); [by apply queue_step_same|done].
    - rewrite <-H2, <-Ha, <-H3. destruct (begun f && alive (q f) && own_event e); [by apply queue_step_same|done].
    - by apply process_dies_same.
    - rewrite <-H1, <-H2, <-H3, <-H6. destruct o as [e|].
      + case_match; [by apply process_dies_same|done].
      + destruct (q_box f) as [|i b]; [done|]. destruct (cs f !! i) as [c|]; [|done].
        destruct (begun f); [by apply process_dies_same|done].
  Qed.
  Lemma front_run_same fs f g : same_front f g →
    same_front (front_run prof sched name (mem_h clock) f fs) (front_run prof sched name (redis_h clock) g fs).
  Proof. revert f g. induction fs as [|x fs IH]; intros f g H; [done|]. cbn. by apply IH, fstep_same. Qed.
  Lemma front_init_same : same_front (front_init world_empty) (front_init rworld_empty).
  Proof. split; [|done]. split; [apply redis_rel_empty|done]. Qed.

  (** What a related state shows. *)
  Lemma same_sys_view (s : sys world M) (r : sys rworld M) : same_sys name s r → shows_same name s r.
  Proof.
    intros ((Hq & Hh & _) & H1 & H2 & H3 & H4).
    split; [done|]. split; [done|]. split; [done|]. split; [done|]. split.
    - intros x. specialize (Hq (format_queue_name name x) ltac:(by exists x)). unfold SpecRedisLive.r_list, Backend.rlist in *.
      unfold Spec.qlist. unfold ql in Hq. destruct (keys (sw r) !! _) as [[l|m]|]; congruence.
    - intros id. specialize (Hh _ (list_key_storage name)). unfold SpecRedisLive.r_record, Spec.stored.
      destruct (keys (sw r) !! STORAGE_HASH) as [[l|m]|]; [done| |]; by rewrite Hh.
  Qed.

  (** Timers. *)
  Definition same_timed (t : timed world M) (u : timed rworld M) : Prop :=
    same_sys name (tq t) (tq u) ∧ tnow t = tnow u ∧ timers t = timers u.
  Lemma timed_step_same t u e : same_timed t u →
    same_timed (timed_step prof sched name (mem_h clock) t e) (timed_step prof sched name (redis_h clock) u e).
  Proof.
    intros (Hq & Hn & Ht).
    assert (∀ e, same_sys name (sys_step prof sched name (mem_h clock) (tq t) e).1 (sys_step prof sched name (redis_h clock) (tq u) e).1) as Hs.
    { intros e0. by apply step_same. }
    assert (∀ (s : sys world M) (r : sys rworld M) now, same_sys name s r → arm s now = arm r now) as Harm.
    { intros s r now (_ & E & _). unfold arm. by rewrite E. }
    assert (∀ i, expired t i = expired u i) as Hex by (intros i; unfold expired; by rewrite Hn, Ht).
    pose proof (same_alive _ _ Hq) as Ha.
    assert (∀ e d, same_timed
      (Timed (sys_step prof sched name (mem_h clock) (tq t) e).1 (later (tnow t) d)
         (if alive (sys_step prof sched name (mem_h clock) (tq t) e).1
          then timers t ++ (if alive (tq t) then [] else [arm (sys_step prof sched name (mem_h clock) (tq t) e).1 (later (tnow t) d)]) else []))
      (Timed (sys_step prof sched name (redis_h clock) (tq u) e).1 (later (tnow u) d)
         (if alive (sys_step prof sched name (redis_h clock) (tq u) e).1
          then timers u ++ (if alive (tq u) then [] else [arm (sys_step prof sched name (redis_h clock) (tq u) e).1 (later (tnow u) d)]) else []))) as HT.
    { intros e0 d. specialize (Hs e0). split; [exact Hs|]. cbn [tnow timers].
      by rewrite <-Hn, <-Ht, <-Ha, <-(same_alive _ _ Hs), (Harm _ _ _ Hs). }
    destruct e as [d|i d|e d]; cbn [timed_step].
    all: try (destruct e; try apply HT).
    all: try (split; [done|]; cbn; by rewrite Hn).
    rewrite <-Hex. destruct (expired t i).
    - specialize (Hs EvTick). split; [exact Hs|]. cbn [tnow timers]. by rewrite <-Hn, <-Ht, <-(same_alive _ _ Hs), (Harm _ _ _ Hs).
    - split; [done|]. cbn. by rewrite Hn.
  Qed.
  Lemma timed_run_same es t u : same_timed t u →
    same_timed (timed_run prof sched name (mem_h clock) t es) (timed_run prof sched name (redis_h clock) u es).
  Proof. revert t u. induction es as [|e es IH]; intros t u H; [done|]. cbn. by apply IH, timed_step_same. Qed.
End front.

Section executed.
  Context {M : Type} `{SM : Serde M} {SO : SerdeOk M}.
  Context (prof : profile).
  Context (sched : string → option (time → option time)).
  Context (name : string).
  Context (clock : nat → time).
  Context (fe : nat → fevent M).
  Notation m n := (instant prof sched name (mem_h clock) world_empty fe n).
  Notation r n := (instant prof sched name (redis_h clock) rworld_empty fe n).

  Lemma instant_same n : same_front name (m n) (r n).
  Proof. apply front_run_same, front_init_same. Qed.
  Lemma arrivals_same (s : sys world M) (t : sys rworld M) es : same_sys name s t →
    r_arrivals prof sched name clock t es = arrivals prof sched name clock s es.
  Proof.
    revert s t. induction es as [|e es IH]; intros s t H; [done|]. cbn [r_arrivals arrivals].
    destruct (step_same prof sched name clock s t e H) as [_ H']. rewrite (IH _ _ H').
    destruct (same_sys_view name _ _ H) as (_&_&_&_&E&_). destruct (same_sys_view name _ _ H') as (_&_&_&_&E'&_).
    by rewrite E, E'.
  Qed.
  Lemma serving_same : serving prof sched name (redis_h clock) rworld_empty fe → serving prof sched name (mem_h clock) world_empty fe.
  Proof.
    intros (S1 & S2 & S3 & S4). split; [|split; [|split]]; intros n; destruct (instant_same n) as (Hq & H1 & H2 & H3 & H4 & H5 & H6 & H7).
    - rewrite H6. apply S1.
    - rewrite H5. apply S2.
    - rewrite H3. apply S3.
    - rewrite H1, H2. apply S4.
  Qed.
  Lemma lasting_same : lasting prof sched name (redis_h clock) rworld_empty fe → lasting prof sched name (mem_h clock) world_empty fe.
  Proof.
    intros H n. destruct (instant_same n) as (Hq & H1 & H2 & H3 & H4 & H5 & H6 & H7). rewrite H4, H2, (same_alive name _ _ Hq). apply H.
  Qed.
  Lemma q_tasks n : tasks (q (m n)) = tasks (q (r n)).
  Proof. destruct (instant_same n) as (Hq & _). by destruct (same_sys_view name _ _ Hq) as (_ & -> & _). Qed.
  Lemma q_runs n : runs (q (m n)) = runs (q (r n)).
  Proof. destruct (instant_same n) as (Hq & _). by destruct (same_sys_view name _ _ Hq) as (_ & _ & _ & -> & _). Qed.
  Lemma working_same : working prof sched name (redis_h clock) rworld_empty fe → working prof sched name (mem_h clock) world_empty fe.
  Proof.
    intros [W1 W2]. split; intros n.
    - destruct (instant_same n) as (Hq & H1 & H2 & _). rewrite H2. apply W1.
    - intros t. rewrite q_tasks. intros Ht. destruct (W2 n t Ht) as (k & i & u & t' & G1 & G2 & G3 & G4).
      exists k, i, u, t'. by rewrite q_tasks.
  Qed.
  Lemma r_executed n0 C j B :
    let i := length (cs (r n0)) in
    let events n := map (λ x, x.1.2) (trace (r n)) in
    serving prof sched name (redis_h clock) rworld_empty fe →
    lasting prof sched name (redis_h clock) rworld_empty fe →
    working prof sched name (redis_h clock) rworld_empty fe →
    (∀ n, begun (r n) = true → (1 <= max_processing_jobs (cfg (q (r n))))%nat) →
    (∀ n, Forall plain_event (events n)) →
    Z.of_nat B <= i32_max → (∀ n, (r_arrivals prof sched name clock (sys_init rworld_empty) (events n) <= B)%nat) →
    fe n0 = FCall C → call_for j C → comes_due clock j →
    (∀ n k c, cs (r n) !! k = Some c → k ≠ i → ¬ meddles (jid j) (c_call c)) →
    (∃ n c to, (n0 <= n)%nat ∧ cs (r n) !! i = Some c ∧ c_at c = Returned (RUnit (Ok tt)) to) ∧
    ∃ m1 m2 x, (n0 <= m1 <= m2)%nat ∧
      head (runs_of (jid j) (q (r m1))) = Some x ∧ data x = data j ∧ tasks_of (jid j) (q (r m2)) = [].
  Proof.
    intros i events H1 H2 H3 H4 H5 HB H6 H7 HC H8 H9.
    assert (∀ n, hist prof sched name clock fe n = events n) as Eh.
    { intros n. unfold hist, events. by destruct (instant_same n) as (_&_&_&_&_&_&_&->). }
    assert (∀ n, cs (m n) = cs (r n)) as Ecs by (intros n; by destruct (instant_same n) as (_&_&_&_&_&_&->&_)).
    assert (∃ ec, submission C j ec) as [ec Hsub].
    { destruct HC as [[ec ->]| ->]; [exists ec; by left|exists new_re_run; by right]. }
    assert (∀ n, ok_hist prof sched name clock initial (hist prof sched name clock fe n)) as Hok by (intros n; rewrite Eh; apply plain_ok, H5).
    assert (∀ n, begun (m n) = true → (1 <= max_processing_jobs (cfg (q (m n))))%nat) as Hlim.
    { intros n. destruct (instant_same n) as (Hq & _ & Hb & _). rewrite Hb.
      destruct (same_sys_view name _ _ Hq) as (Ec & _). rewrite <-Ec. apply H4. }
    assert (∀ n k c, cs (m n) !! k = Some c → k ≠ length (cs (m n0)) → ¬ meddles (jid j) (c_call c)) as Hoth.
    { intros n k c. rewrite !Ecs. apply H9. }
    assert (∀ n, (arrivals prof sched name clock initial (hist prof sched name clock fe n) <= B)%nat) as Harr.
    { intros n. rewrite Eh. rewrite <-(arrivals_same _ (sys_init rworld_empty)); [apply H6|]. split; [apply redis_rel_empty|done]. }
    destruct (executed prof sched name clock fe (serving_same H1) (lasting_same H2) (working_same H3) Hok Hlim n0 C j ec Hsub H7 Hoth B H8 HB Harr)
      as [(n & c & to & G1 & G2 & G3) (m1 & m2 & x & G4 & G5 & G6 & G7)].
    split.
    - exists n, c, to. rewrite !Ecs in G2. done.
    - exists m1, m2, x. unfold runs_of in *. rewrite q_runs in G5. unfold tasks_of in *. rewrite q_tasks in G7. done.
  Qed.
End executed.

Section timed.
  Context {M : Type} `{SM : Serde M} {SO : SerdeOk M}.
  Context (prof : profile).
  Context (sched : string → option (time → option time)).
  Context (name : string).
  Context (clock : nat → time).
  Notation mh := (mem_h clock).
  Notation rh := (redis_h clock).

  Lemma expired_same (t : timed world M) (u : timed rworld M) i : same_timed name t u → expired t i = expired u i.
  Proof. intros (_ & Hn & Ht). unfold expired. by rewrite Hn, Ht. Qed.
  Lemma untimed_same es (t : timed world M) (u : timed rworld M) : same_timed name t u →
    untimed prof sched name mh t es = untimed prof sched name rh u es.
  Proof.
    revert t u. induction es as [|e es IH]; intros t u H; [done|]. cbn [untimed].
    rewrite (IH _ _ (timed_step_same prof sched name clock t u e H)). f_equal.
    destruct e as [d|i d|e d]; try done. by rewrite (expired_same t u).
  Qed.
  Lemma throughout_same (P : timed world M → Prop) (P' : timed rworld M → Prop) es t u :
    (∀ t u, same_timed name t u → P' u → P t) → same_timed name t u →
    throughout prof sched name rh P' u es → throughout prof sched name mh P t es.
  Proof.
    intros HP. revert t u. induction es as [|e es IH]; intros t u H [H1 H2]; (split; [by eapply HP|]); [done|].
    eapply IH; [|exact H2]. by apply timed_step_same.
  Qed.
  Lemma always_free_same es t u : same_timed name t u →
    always_free prof sched name rh (r_free_slots name) u es → always_free prof sched name mh (free_slots name) t es.
  Proof.
    revert t u. induction es as [|e es IH]; intros t u H; [done|]. intros [H1 H2]. split.
    - intros (i & d & -> & Hx). destruct H as (Hq & Hn & Ht).
      destruct (same_sys_view name _ _ Hq) as (Ec & _ & Ea & _ & El & _).
      unfold free_slots. rewrite <-Ec, <-Ea, <-El. apply H1. exists i, d. split; [done|].
      rewrite <-(expired_same t u); [done|]. by split.
    - eapply IH; [|exact H2]. by apply timed_step_same.
  Qed.
  Lemma r_response_time es0 es D late C id j :
    let t := timed_run prof sched name rh (timed_init rworld_empty) es0 in
    let n := (length (r_list name (sw (tq t)) Queued) + r_arrivals prof sched name clock (tq t) (untimed prof sched name rh t es))%nat in
    Forall plain_event (untimed prof sched name rh (timed_init rworld_empty) (es0 ++ es)) →
    tick_period wq_config_default <= D → 0 <= late → 0 <= C →
    Forall (period_within D) (es0 ++ es) → Forall (tick_within C) es → throughout prof sched name rh (punctual late) t es →
    always_free prof sched name rh (r_free_slots name) t es → Z.of_nat n * (D + late + C) < elapsed es →
    id ∈ r_list name (sw (tq t)) Queued → r_record (M := M) (sw (tq t)) id = Some j →
    (∀ k, (rreads (sw (tq t)) <= k)%nat → due j (clock k)) →
    Forall (λ e, ¬ submits id e ∧ e ≠ EvCancel id) (untimed prof sched name rh t es) → Z.of_nat n <= i32_max →
    ∃ es1 es2, es = es1 ++ es2 ∧ id ∈ r_list name (sw (tq (timed_run prof sched name rh t es1))) Running.
  Proof.
    intros t n Hok HD Hl HC HE HT Hall Hf He Hin Hs Hdue Hdis Hmax.
    assert (same_timed (M := M) name (timed_init world_empty) (timed_init rworld_empty)) as H0.
    { split; [|done]. split; [apply redis_rel_empty|done]. }
    pose proof (timed_run_same prof sched name clock es0 _ _ H0) as Ht. fold t in Ht.
    set (t' := timed_run prof sched name mh (timed_init world_empty) es0) in *. pose proof Ht as (Hq & _).
    destruct (same_sys_view name _ _ Hq) as (_ & _ & _ & _ & El & Er).
    pose proof (untimed_same es _ _ Ht) as Eu.
    assert ((length (qlist name (sw (tq t')) Queued) + arrivals prof sched name clock (tq t') (untimed prof sched name mh t' es))%nat = n) as En.
    { unfold n. by rewrite El, Eu, (arrivals_same prof sched name clock (tq t')). }
    destruct (response_time prof sched name clock es0 es D late C id j) as (es1 & es2 & -> & Hr); try done.
    - apply plain_ok. by rewrite (untimed_same _ _ _ H0).
    - eapply throughout_same; [|exact Ht|exact Hall]. intros a b (Hab & Hn & Hb) [P1 P2]. split; [by rewrite (same_alive name _ _ Hab)|].
      rewrite Hn, Hb. done.
    - eapply always_free_same; [exact Ht|done].
    - by fold t'; rewrite En.
    - fold t'. by rewrite <-El.
    - fold t'. by rewrite <-Er.
    - fold t'. intros k Hk. apply Hdue. destruct Hq as ((_ & _ & E & _) & _). by rewrite <-E.
    - fold t'. by rewrite Eu.
    - by fold t'; rewrite En.
    - exists es1, es2. split; [done|]. destruct (timed_run_same prof sched name clock es1 _ _ Ht) as (Hq1 & _).
      destruct (same_sys_view name _ _ Hq1) as (_ & _ & _ & _ & El1 & _). by rewrite El1.
  Qed.
End timed.
