(** Callers and timers of a queue on Redis. *)
From Verif Require Import SpecFrontRedis HistFacts RedisFacts FrontRedis PropEnd PropTimer Demo.
Open Scope Z_scope.

Section theorems.
  Context {M : Type} `{SM : Serde M} {SO : SerdeOk M}.
  Context (prof : profile).
  Context (sched : string → option (time → option time)).
  Context (name : string).
  Context (clock : nat → time).
  Notation rh := (redis_h clock).
  Notation r_list := (r_list name).
  Notation r_record := (@r_record M SM).

  (** C120.  Every history of a process and its callers gives on Redis, from an empty keyspace, the same
      calls with the same answers, the same mailboxes, the same steps of the queue, and the same queue as on
      the in-memory store. *)
  Theorem C120_callers (fs : list (fevent M)) :
    let f := front_run prof sched name (mem_h clock) (front_init world_empty) fs in
    let g := front_run prof sched name rh (front_init rworld_empty) fs in
    shows_same name (q f) (q g) ∧ cs g = cs f ∧ trace g = trace f ∧ q_box g = q_box f ∧ aj_box g = aj_box f ∧
    known g = known f ∧ begun g = begun f ∧ aj_up g = aj_up f.
  Proof.
    cbv zeta. destruct (front_run_same prof sched name clock fs _ _ (front_init_same name)) as (H & H1 & H2 & H3 & H4 & H5 & H6 & H7).
    split; [exact (same_sys_view name _ _ H)|]. done.
  Qed.

  (** The same for a queue and its timers, in real time. *)
  Theorem C120_timers (es : list (tevent M)) :
    let t := timed_run prof sched name (mem_h clock) (timed_init world_empty) es in
    let u := timed_run prof sched name rh (timed_init rworld_empty) es in
    shows_same name (tq t) (tq u) ∧ tnow u = tnow t ∧ timers u = timers t.
  Proof.
    cbv zeta. destruct (timed_run_same prof sched name clock es (timed_init world_empty) (timed_init rworld_empty)) as (H & H1 & H2).
    { split; [exact (proj1 (front_init_same name))|done]. }
    split; [exact (same_sys_view name _ _ H)|]. done.
  Qed.

  (** In every endless execution on Redis in which threads go on, actors read their mailboxes, nothing dies,
      the timer fires and tasks are polled again and again, and the arrivals are bounded: run() or just_run()
      of a job with a new id that nobody else submits, updates or cancels ends with Ok, the job is executed
      with the data submitted, and its execution ends. *)
  Theorem C120_executed (fe : nat → fevent M) n0 C j B :
    let at_ := instant prof sched name rh rworld_empty fe in
    let i := length (cs (at_ n0)) in
    let events n := map (λ x, x.1.2) (trace (at_ n)) in
    serving prof sched name rh rworld_empty fe → lasting prof sched name rh rworld_empty fe →
    working prof sched name rh rworld_empty fe →
    (∀ n, begun (at_ n) = true → (1 <= max_processing_jobs (cfg (q (at_ n))))%nat) →
    (∀ n, Forall plain_event (events n)) →
    Z.of_nat B <= i32_max → (∀ n, (r_arrivals prof sched name clock (sys_init rworld_empty) (events n) <= B)%nat) →
    fe n0 = FCall C → call_for j C → comes_due clock j →
    (∀ n k c, cs (at_ n) !! k = Some c → k ≠ i → ¬ meddles (jid j) (c_call c)) →
    (∃ n c to, (n0 <= n)%nat ∧ cs (at_ n) !! i = Some c ∧ c_at c = Returned (RUnit (Ok tt)) to) ∧
    ∃ m1 m2 x, (n0 <= m1 <= m2)%nat ∧
      head (runs_of (jid j) (q (at_ m1))) = Some x ∧ data x = data j ∧ tasks_of (jid j) (q (at_ m2)) = [].
  Proof. exact (r_executed prof sched name clock fe n0 C j B). Qed.

  (** Response time (C78) on Redis: if every tick finds a free slot, takes at most [C] and is at most [late]
      late, a due job is started within as many periods as there are waiting ids and arrivals. *)
  Theorem C120_response_time es0 es D late C id j :
    let t := timed_run prof sched name rh (timed_init rworld_empty) es0 in
    let n := (length (r_list (sw (tq t)) Queued) + r_arrivals prof sched name clock (tq t) (untimed prof sched name rh t es))%nat in
    Forall plain_event (untimed prof sched name rh (timed_init rworld_empty) (es0 ++ es)) →
    tick_period wq_config_default <= D → 0 <= late → 0 <= C →
    Forall (period_within D) (es0 ++ es) → Forall (tick_within C) es → throughout prof sched name rh (punctual late) t es →
    always_free prof sched name rh (r_free_slots name) t es → Z.of_nat n * (D + late + C) < elapsed es →
    id ∈ r_list (sw (tq t)) Queued → r_record (sw (tq t)) id = Some j →
    (∀ k, (rreads (sw (tq t)) <= k)%nat → due j (clock k)) →
    Forall (λ e, ¬ submits id e ∧ e ≠ EvCancel id) (untimed prof sched name rh t es) → Z.of_nat n <= i32_max →
    ∃ es1 es2, es = es1 ++ es2 ∧ id ∈ r_list (sw (tq (timed_run prof sched name rh t es1))) Running.
  Proof. exact (r_response_time prof sched name clock es0 es D late C id j). Qed.
End theorems.
Print Assumptions C120_callers.
Print Assumptions C120_timers.
Print Assumptions C120_executed.
Print Assumptions C120_response_time.

(** *** Examples *)
(** The execution of C103, on Redis: "a" by run(), "b" by just_run(). *)
Notation rpe_at := (instant (M := Z) Debug demo_sched "q" (redis_h demo_clock) rworld_empty pe_fe).
Lemma rpe n : same_front "q" (pe_at n) (rpe_at n).
Proof. exact (instant_same Debug demo_sched "q" demo_clock pe_fe n). Qed.
Lemma rpe_view n : cs (rpe_at n) = cs (pe_at n) ∧ trace (rpe_at n) = trace (pe_at n) ∧ begun (rpe_at n) = begun (pe_at n) ∧
  cfg (q (rpe_at n)) = cfg (q (pe_at n)) ∧ tasks (q (rpe_at n)) = tasks (q (pe_at n)) ∧ alive (q (rpe_at n)) = alive (q (pe_at n)) ∧
  known (rpe_at n) = known (pe_at n) ∧ q_box (rpe_at n) = q_box (pe_at n) ∧ aj_box (rpe_at n) = aj_box (pe_at n) ∧
  aj_up (rpe_at n) = aj_up (pe_at n).
Proof.
  destruct (rpe n) as (H & H1 & H2 & H3 & H4 & H5 & H6 & H7). destruct (same_sys_view "q" _ _ H) as (E1 & E2 & E3 & _). done.
Qed.
Example C120_serving : serving Debug demo_sched "q" (redis_h demo_clock) rworld_empty pe_fe.
Proof.
  destruct C103_serving as (S1 & S2 & S3 & S4).
  split; [|split; [|split]]; intros n; destruct (rpe_view n) as (E1 & E2 & E3 & E4 & E5 & E6 & E7 & E8 & E9 & E10).
  - rewrite E1. apply S1.
  - rewrite E9. apply S2.
  - rewrite E8. apply S3.
  - rewrite E7, E3. apply S4.
Qed.
Example C120_lasting : lasting Debug demo_sched "q" (redis_h demo_clock) rworld_empty pe_fe.
Proof.
  intros n. destruct (rpe_view n) as (E1 & E2 & E3 & E4 & E5 & E6 & E7 & E8 & E9 & E10). rewrite E10, E3, E6. apply C103_lasting.
Qed.
Example C120_working : working Debug demo_sched "q" (redis_h demo_clock) rworld_empty pe_fe.
Proof.
  destruct C103_working as [W1 W2]. split; intros n; destruct (rpe_view n) as (E1 & E2 & E3 & E4 & E5 & _).
  - rewrite E3. apply W1.
  - intros t. rewrite E5. intros Ht. destruct (W2 n t Ht) as (k & i & u & t' & G1 & G2 & G3 & G4).
    exists k, i, u, t'. destruct (rpe_view k) as (_ & _ & _ & _ & -> & _). done.
Qed.
Lemma rpe_arrivals n : (r_arrivals Debug demo_sched "q" demo_clock (sys_init rworld_empty) (map (λ x, x.1.2) (trace (rpe_at n))) <= 2)%nat.
Proof.
  destruct (rpe_view n) as (_ & E & _). rewrite E.
  rewrite (arrivals_same Debug demo_sched "q" demo_clock (sys_init world_empty)); [apply C103_case|].
  exact (proj1 (front_init_same "q")).
Qed.
Example C120_case :
  (∃ n c to, (0 <= n)%nat ∧ cs (rpe_at n) !! 0%nat = Some c ∧ c_at c = Returned (RUnit (Ok tt)) to) ∧
  (∃ m1 m2 x, (0 <= m1 <= m2)%nat ∧ head (runs_of "a" (q (rpe_at m1))) = Some x ∧ data x = 1 ∧ tasks_of "a" (q (rpe_at m2)) = []) ∧
  (∃ n c to, (22 <= n)%nat ∧ cs (rpe_at n) !! 1%nat = Some c ∧ c_at c = Returned (RUnit (Ok tt)) to) ∧
  (∃ m1 m2 x, (22 <= m1 <= m2)%nat ∧ head (runs_of "b" (q (rpe_at m1))) = Some x ∧ data x = 2 ∧ tasks_of "b" (q (rpe_at m2)) = []).
Proof.
  destruct C103_case as (Hlim & _ & _ & Ha & Hda & Hma & Hb & Hdb & Hmb).
  assert (∀ n, begun (rpe_at n) = true → (1 <= max_processing_jobs (cfg (q (rpe_at n))))%nat) as Hlim'.
  { intros n. destruct (rpe_view n) as (_ & _ & -> & -> & _). apply Hlim. }
  assert (∀ n, Forall plain_event (map (λ x, x.1.2) (trace (rpe_at n)))) as Hpl.
  { intros n. destruct (rpe_view n) as (_ & E & _). rewrite E. by destruct (pe_all n) as [(_ & _ & H & _) _]. }
  assert (length (cs (pe_at 22)) = 1%nat) as E22 by (by vm_compute).
  assert (∀ n, cs (rpe_at n) = cs (pe_at n)) as Ecs by (intros n; apply rpe_view).
  destruct (C120_executed Debug demo_sched "q" demo_clock pe_fe 0 (CRun pe_a new_re_run) pe_a 2 C120_serving C120_lasting C120_working
    Hlim' Hpl ltac:(done) rpe_arrivals Ha ltac:(left; by eexists) Hda) as [G1 G2].
  { intros n k c. rewrite Ecs. apply Hma. }
  destruct (C120_executed Debug demo_sched "q" demo_clock pe_fe 22 (CJust (demo_job "b" 2)) (demo_job "b" 2) 2 C120_serving C120_lasting C120_working
    Hlim' Hpl ltac:(done) rpe_arrivals Hb ltac:(by right) Hdb) as [G3 G4].
  { intros n k c. rewrite !Ecs. apply Hmb. }
  rewrite Ecs, E22 in G3. clear E22. split; [exact G1|]. split; [exact G2|]. split; [exact G3|exact G4].
Qed.

(** The timed case of C78, on Redis. *)
Notation rpt := (timed_run (M := Z) Debug demo_sched "q" (redis_h demo_clock)).
Notation rpt0 := (rpt (timed_init rworld_empty) pt_es0).
Fixpoint r_freeb (t : timed rworld Z) (es : list (tevent Z)) : bool :=
  match es with
  | [] => true
  | e :: es' => implb (match e with TFire _ _ => true | _ => false end) (1 <=? r_free_slots "q" (tq t))%nat &&
      r_freeb (timed_step Debug demo_sched "q" (redis_h demo_clock) t e) es'
  end.
Lemma r_freeb_ok t es : r_freeb t es = true → always_free Debug demo_sched "q" (redis_h demo_clock) (r_free_slots "q") t es.
Proof.
  revert t. induction es as [|e es IH]; intros t; [done|]. cbn [r_freeb always_free].
  intros [H1 H2]%andb_true_iff. split; [|by apply IH]. intros (i & d & -> & _). by apply Nat.leb_le.
Qed.
Definition r_punctualb (late : Z) (t : timed rworld Z) : bool := alive (tq t) && forallb (λ d, tnow t <=? d + late) (timers t).
Fixpoint r_throughoutb (p : timed rworld Z → bool) (t : timed rworld Z) (es : list (tevent Z)) : bool :=
  p t && match es with [] => true | e :: es' => r_throughoutb p (timed_step Debug demo_sched "q" (redis_h demo_clock) t e) es' end.
Lemma r_throughoutb_ok late t es :
  r_throughoutb (r_punctualb late) t es = true → throughout Debug demo_sched "q" (redis_h demo_clock) (punctual late) t es.
Proof.
  assert (∀ t : timed rworld Z, r_punctualb late t = true → punctual late t) as Hp.
  { intros t0 [H1 H2]%andb_true_iff. split; [done|]. intros d Hd.
    rewrite forallb_forall in H2. apply elem_of_list_In in Hd. specialize (H2 d Hd). lia. }
  revert t. induction es as [|e es IH]; intros t [H1 H2]%andb_true_iff; (split; [by apply Hp|]); [done|]. by apply IH.
Qed.
Example C120_case_timed : ∃ es1 es2, pt_es = es1 ++ es2 ∧ "b" ∈ r_list "q" (sw (tq (rpt rpt0 es1))) Running.
Proof.
  assert (∃ j, r_record (M := Z) (sw (tq rpt0)) "b" = Some j ∧ jtype (ctx j) = Normal) as (j & Hj & Ht).
  { destruct (r_record (M := Z) (sw (tq rpt0)) "b") as [j|] eqn:E; [|exfalso; revert E; by vm_compute].
    exists j. split; [done|]. revert E. vm_compute. by intros [= <-]. }
  apply (C120_response_time Debug demo_sched "q" demo_clock pt_es0 pt_es (ms 100) (ms 5) (ms 1) "b" j).
  - vm_compute. repeat constructor.
  - done.
  - done.
  - done.
  - repeat (apply List.Forall_cons; [done|]). constructor.
  - repeat (apply List.Forall_cons; [done|]). constructor.
  - apply r_throughoutb_ok. by vm_compute.
  - apply r_freeb_ok. by vm_compute.
  - by vm_compute.
  - assert (r_list "q" (sw (tq rpt0)) Queued = ["b"]) as -> by (by vm_compute). left.
  - exact Hj.
  - intros k _. unfold due. by rewrite Ht.
  - vm_compute. repeat (apply List.Forall_cons; [split; [by intros []|done]|]). constructor.
  - by vm_compute.
Qed.
