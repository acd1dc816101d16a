(** Properties of the job builders and of the first execution of what they make. *)
From Verif Require Import SpecBuilder HistFacts BuilderFacts Demo.

Section theorems.
  Context {M : Type} `{SM : Serde M} {SO : SerdeOk M}.
  Context (prof : profile).
  Context (sched : string → option (time → option time)).
  Context (name : string).
  (** The clock as read by the queue, and as read by the submitting code. *)
  Context (clock clk : nat → time).
  Notation ok_hist := (ok_hist prof sched name clock).
  Notation after := (after prof sched name clock).
  Notation picked_at := (picked_at clock).
  Notation make uuid d bs w := (run (mem_h clk) (build (M := M) sched uuid d bs) w).2.

  (** C70.  Any chain of builder calls on a new job, in any order, from any state of the clock: the
      result is the job in which for id, retry policy and type the last call counts, and everything
      else is as Job::new makes it. *)
  Theorem C70_builder uuid d bs w j :
    Forall (λ b, ¬ sets_context b) bs → make uuid d bs w = Done j →
    built sched clk (S (reads w)) (context_new uuid (ms_of (clk (reads w)))) d bs j.
  Proof. exact (done_built sched clk uuid d bs w j). Qed.
  (** With set_context, the calls after the last one count, on the given context. *)
  Theorem C70_builder_context uuid d bs1 c bs2 w j :
    Forall (λ b, ¬ sets_context b) bs2 → make uuid d (bs1 ++ BContext c :: bs2) w = Done j →
    built sched clk (S (reads w) + readings bs1) c d bs2 j.
  Proof. exact (build_context sched clk uuid d bs1 c bs2 w j). Qed.

  (** C71, the exact condition: the chain makes a job, or it panics, and then a delay leaves the range
      of DateTime or a cron expression is not valid. *)
  Theorem C71_builder_panics_partial uuid d bs w :
    Forall (λ b, ¬ sets_context b) bs →
    (make uuid d bs w = Panicked ∧ impossible_in sched clk (S (reads w)) bs) ∨
    (∃ j, make uuid d bs w = Done j ∧ ¬ impossible_in sched clk (S (reads w)) bs).
  Proof.
    intros H. destruct (build_run sched clk uuid d bs w H) as [Hp|(j & Hj & Hi & _)]; [by left|right; by exists j].
  Qed.

  (** C72.  A submission that queues the job: the first execution that follows, whatever happens
      before it (other submissions of the id excepted), is called with the submitted payload, id,
      creation time, type and retry policy, up to the rounding to microseconds; it is picked when due. *)
  Theorem C72_first_execution es1 j ec es2 :
    ok_hist initial (es1 ++ EvEnqueue j ec :: es2) → queues_it (after es1) j ec →
    Forall (λ e, ¬ submits (jid j) e) es2 →
    let s := after es1 in let s' := after (es1 ++ EvEnqueue j ec :: es2) in
    ∀ r, head (new_runs (jid j) s s') = Some r →
      data r = data j ∧ jid r = jid j ∧ created_at (ctx r) = created_at (ctx j) ∧
      type_read (jtype (ctx j)) (jtype (ctx r)) ∧ retry_read (jretry (ctx j)) (jretry (ctx r)) ∧
      ∃ k, picked_at (reads (sw s)) (reads (sw s')) r k.
  Proof.
    intros Hok Hq HE s s' r Hr.
    destruct (first_request prof sched name clock j es1 ec es2 Hok Hq HE r Hr) as (H1&H2&H3&H4&H5).
    destruct (first_picked prof sched name clock j es1 ec es2 Hok Hq HE r Hr) as (_&H6). done.
  Qed.

  (** C73.  delay: if the last call that sets the type is delay(x), made at the reading [now], the first
      execution is picked after now + x.  Missing: the last microsecond (as C11). *)
  Theorem C73_delay_partial uuid d bs1 x bs2 w j es1 ec es2 :
    Forall (λ b, ¬ sets_context b) (bs1 ++ BDelay x :: bs2) → Forall (λ b, ¬ sets_type b) bs2 →
    make uuid d (bs1 ++ BDelay x :: bs2) w = Done j →
    ok_hist initial (es1 ++ EvEnqueue j ec :: es2) → queues_it (after es1) j ec →
    Forall (λ e, ¬ submits (jid j) e) es2 →
    let s := after es1 in let s' := after (es1 ++ EvEnqueue j ec :: es2) in
    let now := clk (S (reads w) + readings bs1)%nat in
    ∀ r, head (new_runs (jid j) s s') = Some r →
      ∃ k, picked_at (reads (sw s)) (reads (sw s')) r k ∧ now + x - 1000 < clock k.
  Proof. exact (delay_runs prof sched name clock clk uuid d bs1 x bs2 w j es1 ec es2). Qed.

  (** C74.  cron: the first execution is for the schedule's first event after the call of cron, and is
      not picked before.  Missing: schedules without such an event; then the time of the call is taken
      for an event ... *)
  Theorem C74_first_slot_partial uuid d bs1 e bs2 w j es1 ec es2 :
    Forall (λ b, ¬ sets_context b) (bs1 ++ BCron e :: bs2) → Forall (λ b, ¬ sets_type b) bs2 →
    make uuid d (bs1 ++ BCron e :: bs2) w = Done j →
    ok_hist initial (es1 ++ EvEnqueue j ec :: es2) → queues_it (after es1) j ec →
    Forall (λ e, ¬ submits (jid j) e) es2 →
    let s := after es1 in let s' := after (es1 ++ EvEnqueue j ec :: es2) in
    let now := clk (S (reads w) + readings bs1)%nat in
    ∀ r, head (new_runs (jid j) s s') = Some r →
      ∃ f k, sched e = Some f ∧ picked_at (reads (sw s)) (reads (sw s')) r k ∧
             cut_us (default now (f now)) (slot_of r) ∧ slot_of r <= clock k.
  Proof. exact (cron_runs prof sched name clock clk uuid d bs1 e bs2 w j es1 ec es2). Qed.
  (** ... and the job is due at once, for every such schedule. *)
  Theorem C74_no_event_due_at_once uuid d bs1 e f bs2 w j :
    Forall (λ b, ¬ sets_context b) (bs1 ++ BCron e :: bs2) → Forall (λ b, ¬ sets_type b) bs2 →
    make uuid d (bs1 ++ BCron e :: bs2) w = Done j →
    let now := clk (S (reads w) + readings bs1)%nat in
    sched e = Some f → f now = None → ∀ t, now <= t → due j t.
  Proof. exact (over_due sched clk uuid d bs1 e f bs2 w j). Qed.
End theorems.

(** ** Refutations and concrete cases *)

Notation pb_make bs k := ((run (mem_h demo_clock) (build (M := Z) demo_sched "u" 7 bs) (World (st world_empty) k [])).2).
Definition pb_job (bs : list bcall) (k : nat) : job Z :=
  match pb_make bs k with Done j => j | _ => demo_job "none" 0 end.
Definition pb_es2 (id : string) : list (event Z) := [EvTick; EvTask 0 (demo_ok 3); EvTask 0 (demo_ok 3); EvTask 0 (demo_ok 3)].

(** C71: `.cron("bad")` and `.delay(Duration::MAX)` (i64::MAX milliseconds). *)
Theorem C71_builder_panics_refuted :
  pb_make [BId "a"; BCron "bad"; BRetry retry_default] 5 = Panicked ∧
  pb_make [BDelay (9223372036854775807 * 1000000)] 5 = Panicked.
Proof. by vm_compute. Qed.

(** C73: delay(500 ns) at 1 us: due at 1500 ns, executed at 1200 ns. *)
Definition pb_early : job Z :=
  match (run (mem_h (λ _, 1000)) (build (M := Z) demo_sched "u" 7 [BDelay 500]) world_empty).2 with
  | Done j => j | _ => demo_job "none" 0 end.
Theorem C73_delay_refuted :
  jtype (ctx pb_early) = ScheduledAt 1500 ∧
  Forall plain_event ([EvStart; EvEnqueue pb_early new_re_run] ++ pb_es2 "u") ∧
  map jid (runs (after Debug demo_sched "q" (λ _, 1200) ([EvStart; EvEnqueue pb_early new_re_run] ++ pb_es2 "u"))) = ["u"].
Proof. split; [by vm_compute|]. split; [repeat constructor|by vm_compute]. Qed.

(** C74: the only event of the schedule "once" is at 1 us; the job is made at 6 ms and executed. *)
Definition pb_once : job Z := pb_job [BCron "once"] 5.
Theorem C74_first_slot_refuted :
  (∃ f, demo_sched "once" = Some f ∧ ∀ t, 1000 <= t → f t = None) ∧
  jtype (ctx pb_once) = Cron "once" 6000000 1 cron_context_default ∧
  Forall plain_event ([EvStart; EvEnqueue pb_once new_re_run] ++ EvTick :: EvTick :: EvTick :: pb_es2 "u") ∧
  map slot_of (runs (demo_after ([EvStart; EvEnqueue pb_once new_re_run] ++ EvTick :: EvTick :: EvTick :: EvTick :: EvTick :: EvTick :: pb_es2 "u"))) = [6000000].
Proof.
  split. { eexists. split; [reflexivity|]. intros t Ht. cbv beta. destruct (t <? 1000) eqn:E; [lia|done]. }
  split; [by vm_compute|]. split; [repeat constructor|by vm_compute].
Qed.

(** A chain with several calls of each kind. *)
Definition pb_chain : list bcall :=
  [BCron "sec"; BId "a"; BRetry retry_default; BDelay 2000000; BId "b"; BRetry (new_interval_retry None 5000)].
Example C70_case :
  Forall (λ b, ¬ sets_context b) pb_chain ∧
  ∃ j, pb_make pb_chain 5 = Done j ∧ data j = 7 ∧
    (* created at 5 ms; cron read the clock at 6 ms, delay at 7 ms *)
    ctx j = Context_ "b" (ScheduledAt 9000000) Queued (Some (new_interval_retry None 5000)) 5 None None None None 0.
Proof.
  split; [repeat constructor; by intros []|]. eexists. split; [by vm_compute|]. by split.
Qed.
Example C70_context_case :
  ∃ j, pb_make (pb_chain ++ [BContext (context_new "z" 1); BScheduleAt 4]) 5 = Done j ∧
    jid j = "z" ∧ jtype (ctx j) = ScheduledAt 4 ∧ jretry (ctx j) = None ∧ created_at (ctx j) = 1.
Proof. eexists. split; [by vm_compute|]. by vm_compute. Qed.
Example C71_case :
  (∃ bs1 b bs2, [BId "a"; BCron "bad"] = bs1 ++ b :: bs2 ∧ impossible demo_sched (demo_clock (6 + readings bs1)) b) ∧
  ¬ impossible_in demo_sched demo_clock 6 pb_chain.
Proof.
  split. { by exists [BId "a"], (BCron "bad"), []. }
  destruct (C71_builder_panics_partial demo_sched demo_clock "u" 7 pb_chain (World (st world_empty) 5 [])) as [[H _]|(j&_&H)].
  - repeat constructor; by intros [].
  - by vm_compute in H.
  - exact H.
Qed.

(** A delayed job: submitted, ticks until it is due, executed with payload 7. *)
Definition pb_late : job Z := pb_job [BId "a"; BDelay 2000500; BRetry retry_default] 0.
Definition pb_late_es2 : list (event Z) := [EvTick; EvTick; EvTick; EvTick; EvTick] ++ pb_es2 "a".
Example C72_C73_case :
  let s := demo_after [EvStart] in
  let s' := demo_after ([EvStart] ++ EvEnqueue pb_late new_re_run :: pb_late_es2) in
  ok_hist Debug demo_sched "q" demo_clock initial ([EvStart] ++ EvEnqueue pb_late new_re_run :: pb_late_es2) ∧
  queues_it s pb_late new_re_run ∧ Forall (λ e, ¬ submits "a" e) pb_late_es2 ∧ jid pb_late = "a" ∧
  map (λ j, (data j, jtype (ctx j), run_at (ctx j))) (new_runs "a" s s') = [(7, ScheduledAt 3000000, Some 5)].
Proof.
  cbv zeta. split; [apply plain_ok; repeat constructor|]. split; [split; [by vm_compute|left; by vm_compute]|].
  split; [repeat constructor; by intros []|]. by vm_compute.
Qed.
(** The same for cron. *)
Definition pb_sec : job Z := pb_job [BId "a"; BCron "sec"] 0.
Definition pb_slow (k : nat) : time := Z.of_nat k * 300000000.
Example C74_case :
  let s := after Debug demo_sched "q" pb_slow [EvStart] in
  let s' := after Debug demo_sched "q" pb_slow ([EvStart] ++ EvEnqueue pb_sec new_re_run :: pb_late_es2) in
  ok_hist Debug demo_sched "q" pb_slow initial ([EvStart] ++ EvEnqueue pb_sec new_re_run :: pb_late_es2) ∧
  queues_it s pb_sec new_re_run ∧ Forall (λ e, ¬ submits "a" e) pb_late_es2 ∧
  jtype (ctx pb_sec) = Cron "sec" 1000000000 1 cron_context_default ∧
  map (λ j, (slot_of j, run_at (ctx j))) (new_runs "a" s s') = [(1000000000, Some 1500)].
Proof.
  cbv zeta. split; [apply plain_ok; repeat constructor|]. split; [split; [by vm_compute|left; by vm_compute]|].
  split; [repeat constructor; by intros []|]. by vm_compute.
Qed.

Print Assumptions C70_builder.
Print Assumptions C70_builder_context.
Print Assumptions C71_builder_panics_partial.
Print Assumptions C72_first_execution.
Print Assumptions C73_delay_partial.
Print Assumptions C74_first_slot_partial.
Print Assumptions C74_no_event_due_at_once.
Print Assumptions C71_builder_panics_refuted.
Print Assumptions C73_delay_refuted.
Print Assumptions C74_first_slot_refuted.
