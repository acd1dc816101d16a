(** Properties of start times, retries and cron jobs.
    [new_runs id s s'] are the executions of [id] started between [s] and [s'], and
    [picked_at clock k0 k1 r k] says that [r] was picked at the clock reading number [k]. *)
From Coq Require Import Sorting.Sorted.
From Verif Require Import Spec MicroFacts HistFacts LifeProps RetryFacts CronFacts Demo.

Section theorems.
  Context {M : Type} `{SM : Serde M} {SO : SerdeOk M}.
  Context (prof : profile).
  Context (sched : string → option (time → option time)).
  Context (name : string).
  Context (clock : nat → time).
  Notation after := (after prof sched name clock).
  Notation ok_hist := (ok_hist prof sched name clock).
  Notation qlist := (qlist name).
  Notation stored := (@stored M SM).
  Notation picked_at := (picked_at clock).
  Implicit Types es : list (event M).

  (** C11.  A job scheduled at [t0] is accepted; whatever follows (other than submitting the id
      again), its first execution, and without retry policy each execution, is picked at a reading
      after [t], which is [t0] cut to whole microseconds.  The clock is arbitrary.  Missing: the
      last microsecond, for which it is false. *)
  Theorem C11_not_early_partial j t0 es1 ec es2 :
    jtype (ctx j) = ScheduledAt t0 →
    ok_hist initial (es1 ++ EvEnqueue j ec :: es2) → queues_it (after es1) j ec →
    Forall (λ e, ¬ submits (jid j) e) es2 →
    let s := after es1 in let s' := after (es1 ++ EvEnqueue j ec :: es2) in
    ∀ i r, new_runs (jid j) s s' !! i = Some r → i = 0%nat ∨ jretry (ctx j) = None →
      ∃ k t, picked_at (reads (sw s)) (reads (sw s')) r k ∧ cut_us t0 t ∧ t < clock k.
  Proof. exact (start_time prof sched name clock j t0 es1 ec es2). Qed.

  (** C26.  [allf]: all executions fail (as reported to both calls of is_failed_output) and the job is
      not canceled.  Then the job is waiting, or processing, or it is Failed after exactly n+1
      executions; and without this assumption there are never more than n+1. *)
  Theorem C26_retry_bound (allf : Prop) es1 j ec es2 n st :
    jretry (ctx j) = Some (Retry 0 (Some n) st) → 0 <= n <= i32_max → ¬ is_cron j →
    run_count (ctx j) = 0%nat →
    ok_hist initial (es1 ++ EvEnqueue j ec :: es2) → queues_it (after es1) j ec →
    Forall (λ e, ¬ revives (jid j) e ∧ default_retry e ∧
                 (allf → all_fail e ∧ e ≠ EvCancel (jid j))) es2 →
    let s := after es1 in let s' := after (es1 ++ EvEnqueue j ec :: es2) in
    let m := Z.of_nat (length (new_runs (jid j) s s')) in
    m <= n + 1 ∧
    ∃ j', stored (sw s') (jid j) = Some j' ∧
      (allf → jstatus (ctx j') = Queued ∨ jstatus (ctx j') = Running ∨
              (jstatus (ctx j') = Failed ∧ m = n + 1 ∧ Z.of_nat (run_count (ctx j')) = n + 1)).
  Proof. exact (retry_bound_count prof sched name clock allf es1 j ec es2 n st). Qed.

  (** C25, what holds instead: after retry_job the job is retried automatically only as often as the
      earlier executions left over ([c] retries were used before). *)
  Theorem C25_manual_retry_partial (allf : Prop) es1 id j es2 c n st :
    stored (sw (after es1)) id = Some j → done_status (jstatus (ctx j)) → alive (after es1) = true →
    jretry (ctx j) = Some (Retry c (Some n) st) → i32_min <= c <= i32_max → n <= i32_max →
    ¬ is_cron j → ok_hist initial (es1 ++ EvRetry id :: es2) →
    Forall (λ e, ¬ revives id e ∧ default_retry e ∧ (allf → all_fail e ∧ e ≠ EvCancel id)) es2 →
    let s := after es1 in let s' := after (es1 ++ EvRetry id :: es2) in
    let m := Z.of_nat (length (new_runs id s s')) in
    m <= Z.max 0 (n - c) + 1 ∧
    ∃ j', stored (sw s') id = Some j' ∧
      (allf → jstatus (ctx j') = Queued ∨ jstatus (ctx j') = Running ∨
              (jstatus (ctx j') = Failed ∧ m = Z.max 0 (n - c) + 1)).
  Proof. exact (manual_retry_bound prof sched name clock allf es1 id j es2 c n st). Qed.

  (** C27.  The execution [t] ends with a failure at the clock reading number [reads (sw s)]. *)
  Theorem C27_interval es1 i u es2 t c m d :
    let s := after es1 in let s' := after (es1 ++ EvTask i u :: es2) in
    ok_hist initial (es1 ++ EvTask i u :: es2) → alive s = true →
    tasks s !! i = Some t → t_phase t = AfterHook →
    jretry (ctx (t_job t)) = Some (Retry c m (Interval d)) →
    ur_retry u = DefaultRetryAt true → should_retry (Retry c m (Interval d)) = true →
    Forall (λ e, ¬ submits (tid t) e) es2 →
    ∀ r, head (new_runs (tid t) s s') = Some r →
      ∃ k, picked_at (reads (sw s)) (reads (sw s')) r k ∧ clock (reads (sw s)) + d - 1000 < clock k.
  Proof. exact (interval_spacing prof sched name clock es1 i u es2 t c m d). Qed.

  (** C28, what holds instead: the retry after the (c+1)-th failure is delayed by d*2^(c+1), twice
      the documented d*2^c; for c up to 29 and times inside the range of DateTime. *)
  Theorem C28_backoff_partial es1 i u es2 t c m d :
    let s := after es1 in let s1 := after (es1 ++ [EvTask i u]) in
    let s' := after (es1 ++ EvTask i u :: es2) in
    ok_hist initial (es1 ++ EvTask i u :: es2) → alive s = true →
    tasks s !! i = Some t → t_phase t = AfterHook →
    jretry (ctx (t_job t)) = Some (Retry c m (ExponentialBackoff d)) →
    ur_retry u = DefaultRetryAt true → should_retry (Retry c m (ExponentialBackoff d)) = true →
    0 <= c <= 29 → dt_min <= clock (reads (sw s)) + d * 2 ^ (c + 1) <= dt_max →
    Forall (λ e, ¬ submits (tid t) e) es2 →
    (∃ j1 a, stored (sw s1) (tid t) = Some j1 ∧ jstatus (ctx j1) = Queued ∧
       jtype (ctx j1) = ScheduledAt a ∧ cut_us (clock (reads (sw s)) + d * 2 ^ (c + 1)) a ∧
       jretry (ctx j1) = Some (Retry (c + 1) m (ExponentialBackoff d))) ∧
    ∀ r, head (new_runs (tid t) s s') = Some r →
      ∃ k, picked_at (reads (sw s)) (reads (sw s')) r k ∧
           clock (reads (sw s)) + d * 2 ^ (c + 1) - 1000 < clock k.
  Proof. exact (backoff_spacing prof sched name clock es1 i u es2 t c m d). Qed.

  (** C29: fewer than 30 retries so far. *)
  Theorem C29_backoff_safe_partial c m d now :
    0 <= c <= 29 → 0 <= d → dt_min <= now → now + d * 2 ^ (c + 1) <= dt_max →
    ∃ t, retry_retry_at prof (Retry c m (ExponentialBackoff d)) now =
           Some (Retry (c + 1) m (ExponentialBackoff d), t) ∧ now <= t.
  Proof.
    intros Hc Hd H1 H2. pose proof (Z.pow_nonneg 2 (c + 1)).
    exists (now + d * 2 ^ (c + 1)). split; [apply backoff_small; [done|]|]; nia.
  Qed.
  (** From 30 retries on, a failing execution kills the actor of a debug build, for ever... *)
  Theorem C29_debug_dies es1 i u es2 t c m d :
    let s := after es1 in let s1 := after (es1 ++ [EvTask i u]) in
    let s' := after (es1 ++ EvTask i u :: es2) in
    prof = Debug →
    ok_hist initial (es1 ++ EvTask i u :: es2) → alive s = true →
    tasks s !! i = Some t → t_phase t = AfterHook →
    jretry (ctx (t_job t)) = Some (Retry c m (ExponentialBackoff d)) →
    ur_retry u = DefaultRetryAt true → should_retry (Retry c m (ExponentialBackoff d)) = true →
    30 <= c < i32_max → Forall (λ e, ¬ submits (tid t) e) es2 →
    alive s1 = false ∧ tasks s1 = [] ∧ new_runs (tid t) s s' = [] ∧
    status_of s' (tid t) = Some Running.
  Proof. exact (backoff_dies prof sched name clock es1 i u es2 t c m d). Qed.
  (** ... and a release build retries in the past or at once. *)
  Theorem C29_release_no_delay c m d now r t :
    prof = Release → 30 <= c < i32_max →
    retry_retry_at prof (Retry c m (ExponentialBackoff d)) now = Some (r, t) →
    t = if c =? 30 then now + d * i32_min else now.
  Proof.
    intros Hp Hc. unfold retry_retry_at. cbn [retried_times strat max_retries].
    destruct (i32_norm prof (c + 1)) as [n|] eqn:E; [|done]. cbn [mbind option_bind].
    assert (n = c + 1) as ->.
    { unfold i32_norm, in_i32, i32_min, i32_max in *. rewrite !(proj2 (Z.leb_le _ _)) in E by lia.
      cbn in E. congruence. }
    rewrite pow2_big by done. rewrite Hp. cbn [mbind option_bind].
    destruct (dt_add _ _) as [a|] eqn:Ea; [|done]. cbn. intros [= <- <-].
    apply dt_add_some in Ea. rewrite Ea. destruct (c =? 30); lia.
  Qed.

  (** C30, for schedules that always have a next event; [m] is max_repeat.  [n] executions; a waiting
      job whose slot has come and that is not due any more has run exactly m times. *)
  Theorem C30_max_repeat es1 j ec es2 e f sl cc m :
    jtype (ctx j) = Cron e sl 1 cc → jretry (ctx j) = None → max_repeat cc = Some m → m < i32_max →
    sched e = Some f → (∀ t, is_Some (f t)) →
    ok_hist initial (es1 ++ EvEnqueue j ec :: es2) → queues_it (after es1) j ec →
    Forall (λ e, ¬ revives (jid j) e) es2 →
    let s := after es1 in let s' := after (es1 ++ EvEnqueue j ec :: es2) in
    let n := Z.of_nat (length (new_runs (jid j) s s')) in
    n <= Z.max 0 m ∧
    ∀ j', stored (sw s') (jid j) = Some j' → jstatus (ctx j') = Queued →
      (∃ sl', jtype (ctx j') = Cron e sl' (1 + n) (norm_cc cc)) ∧
      (0 <= m → end_at cc = None → ∀ now, slot_of j' <= now → ¬ due j' now → n = m).
  Proof. exact (max_repeat_bound prof sched name clock es1 j ec es2 e f sl cc m). Qed.

  (** C31, for a clock that does not go back and schedules that always have a next event, later than
      asked for and on whole microseconds: slots strictly increase, all but the first are events of
      the schedule, and no execution is picked before its slot. *)
  Theorem C31_slots_partial es1 j ec es2 e f sl n cc :
    jtype (ctx j) = Cron e sl n cc → jretry (ctx j) = None →
    sched e = Some f → (∀ t, ∃ u, f t = Some u ∧ t < u ∧ (1000 | u)) →
    (∀ a b, (a <= b)%nat → clock a <= clock b) →
    ok_hist initial (es1 ++ EvEnqueue j ec :: es2) → queues_it (after es1) j ec →
    Forall (λ e, ¬ revives (jid j) e) es2 →
    let s := after es1 in let s' := after (es1 ++ EvEnqueue j ec :: es2) in
    let new := new_runs (jid j) s s' in
    StronglySorted Z.lt (map slot_of new) ∧
    Forall (λ r, ∃ t, f t = Some (slot_of r)) (tail new) ∧
    Forall (λ r, ∃ k, picked_at (reads (sw s)) (reads (sw s')) r k ∧ slot_of r <= clock k) new.
  Proof. exact (cron_slots prof sched name clock es1 j ec es2 e f sl n cc). Qed.

  (** C32, without retry policy; any schedule, any clock. *)
  Theorem C32_end_at_partial es1 j ec es2 e sl n cc x :
    jtype (ctx j) = Cron e sl n cc → jretry (ctx j) = None → end_at cc = Some x →
    ok_hist initial (es1 ++ EvEnqueue j ec :: es2) → queues_it (after es1) j ec →
    Forall (λ e, ¬ submits (jid j) e) es2 →
    let s := after es1 in let s' := after (es1 ++ EvEnqueue j ec :: es2) in
    Forall (λ r, ∃ k, picked_at (reads (sw s)) (reads (sw s')) r k ∧ clock k <= x)
      (new_runs (jid j) s s').
  Proof. exact (cron_end prof sched name clock es1 j ec es2 e sl n cc x). Qed.

  (** C33, the opposite: a waiting job that can never be due again (such as a cron job with
      total_repeat > max_repeat) stays in the waiting list with status Queued for ever, unless it is
      canceled or submitted again. *)
  Theorem C33_expired_stays es1 es2 id j :
    ok_hist initial (es1 ++ es2) → stored (sw (after es1)) id = Some j →
    id ∈ qlist (sw (after es1)) Queued →
    (∀ k, (reads (sw (after es1)) <= k)%nat → ¬ due j (clock k)) →
    Forall (λ e, ¬ submits id e ∧ e ≠ EvCancel id) es2 →
    let s' := after (es1 ++ es2) in
    stored (sw s') id = Some j ∧ jstatus (ctx j) = Queued ∧ id ∈ qlist (sw s') Queued ∧
    runs_of id s' = runs_of id (after es1) ∧ tasks_of id s' = [].
  Proof. exact (never_due prof sched name clock es1 es2 id j). Qed.

  (** C34, the opposite: once an execution of a job (cron or not) has failed and is retried, no later
      execution is a cron execution, in any continuation that does not submit the id again. *)
  Theorem C34_schedule_lost es1 i u es2 t r :
    let s := after es1 in let s' := after (es1 ++ EvTask i u :: es2) in
    ok_hist initial (es1 ++ EvTask i u :: es2) → alive s = true →
    tasks s !! i = Some t → t_phase t = AfterHook → jretry (ctx (t_job t)) = Some r →
    ur_retry u = DefaultRetryAt true → should_retry r = true →
    Forall (λ e, ¬ submits (tid t) e) es2 →
    Forall (λ r, ¬ is_cron r) (new_runs (tid t) s s') ∧
    ∃ j', stored (sw s') (tid t) = Some j' ∧ (jstatus (ctx j') = Running ∨ ¬ is_cron j').
  Proof. exact (schedule_lost prof sched name clock es1 i u es2 t r). Qed.
End theorems.

Notation dj := demo_job.
Definition pt_round (u : user_result Z) : list (event Z) := EvTick :: demo_polls 0 u.
Definition pt_ft := demo_fail 0.

(** ** Refutations *)

(** C11: scheduled at 1500 ns; the clock always shows 1200 ns; the job runs. *)
Definition c11_es : list (event Z) :=
  [EvStart; EvEnqueue (job_schedule_at (dj "a" 0) 1500) new_re_run] ++ pt_round (demo_ok 0).
Theorem C11_not_early_refuted :
  Forall plain_event c11_es ∧
  map jid (runs (after Debug demo_sched "q" (λ _, 1200) c11_es)) = ["a"].
Proof. split; [repeat constructor|]. by vm_compute. Qed.

(** C25: one automatic retry.  Two failed executions, retry_job, one more failed execution: Failed. *)
Definition c25_job : job Z := job_set_retry (dj "a" 0) (new_interval_retry (Some 1) 0).
Definition c25_es1 : list (event Z) :=
  [EvStart; EvEnqueue c25_job new_re_run] ++ pt_round pt_ft ++ pt_round pt_ft.
Definition c25_es : list (event Z) := c25_es1 ++ EvRetry "a" :: pt_round pt_ft.
Theorem C25_manual_retry_refuted :
  Forall plain_event c25_es ∧ Forall all_fail c25_es ∧
  (demo_step (demo_after c25_es1) (EvRetry "a")).2 = RBool (Ok true) ∧
  length (runs (demo_after c25_es1)) = 2%nat ∧
  status_of (demo_after c25_es) "a" = Some Failed ∧ length (runs (demo_after c25_es)) = 3%nat.
Proof. split; [repeat constructor|]. split; [repeat constructor|]. vm_compute. repeat split. Qed.

(** C28: documented delays d, 2d, ...; the first one is 2d. *)
Definition c28_es : list (event Z) :=
  [EvStart; EvEnqueue (job_set_retry (dj "a" 0) (new_exponential_backoff None 1000000000)) new_re_run]
  ++ pt_round pt_ft.
Theorem C28_backoff_refuted :
  (∀ prof m d now, dt_min <= now + d * 2 <= dt_max →
     retry_retry_at prof (new_exponential_backoff m d) now =
     Some (Retry 1 m (ExponentialBackoff d), now + d * 2)) ∧
  Forall plain_event c28_es ∧
  (* the failing execution read the clock at 3 ms *)
  jtype ∘ ctx <$> stored (M := Z) (sw (demo_after c28_es)) "a" =
    Some (ScheduledAt (demo_clock 3 + 2 * 1000000000)).
Proof.
  split; [|split; [repeat constructor|by vm_compute]].
  intros prof m d now H. by apply (backoff_small prof 0 m d now).
Qed.

(** C29: backoff of 1 us, unlimited retries, readings 2000 s apart, 31 failed executions. *)
Definition c29_clock (k : nat) : time := Z.of_nat k * 2000000000000.
Definition c29_es : list (event Z) :=
  [EvStart; EvEnqueue (job_set_retry (dj "a" 0) (new_exponential_backoff None 1000)) new_re_run]
  ++ concat (repeat (pt_round pt_ft) 30).
Theorem C29_backoff_safe_refuted :
  let s p := after p demo_sched "q" c29_clock c29_es in
  let s' p := after p demo_sched "q" c29_clock (c29_es ++ pt_round pt_ft) in
  Forall plain_event (c29_es ++ pt_round pt_ft) ∧
  (* debug: the actor is dead *)
  length (runs (s Debug)) = 30%nat ∧ alive (s Debug) = true ∧ alive (s' Debug) = false ∧
  status_of (s' Debug) "a" = Some Running ∧
  (* release: the execution fails at reading 123, the retry is due before *)
  jtype ∘ ctx <$> stored (M := Z) (sw (s' Release)) "a" =
    Some (ScheduledAt (c29_clock 123 - 2147483648 * 1000)).
Proof. split; [repeat constructor|]. vm_compute. repeat split. Qed.

(** C31.  A schedule with a single event at 1 us, max_repeat 1: the job runs in every tick, always for
    the same slot.  And with a clock that is set back by a second a slot is used twice. *)
Definition pt_cron (e : string) (slot : time) (cc : cron_context) : job Z :=
  job_set_type (dj "a" 0) (Cron e slot 1 cc).
Definition c31_es : list (event Z) :=
  [EvStart; EvEnqueue (pt_cron "once" 1000 (CronContext 0 (Some 1) None)) new_re_run]
  ++ concat (repeat (pt_round (demo_ok 0)) 5).
Definition c31_back (k : nat) : time := if (k <? 3)%nat then 2500000000 else Z.of_nat (k - 3) * 600000000.
Definition c31_es' : list (event Z) :=
  [EvStart; EvEnqueue (pt_cron "sec" 1000000000 cron_context_default) new_re_run]
  ++ concat (repeat (pt_round (demo_ok 0)) 2).
Theorem C31_slots_refuted :
  Forall plain_event c31_es ∧
  map slot_of (runs (demo_after c31_es)) = [1000; 1000; 1000; 1000; 1000] ∧
  Forall plain_event c31_es' ∧
  map slot_of (runs (after Debug demo_sched "q" c31_back c31_es')) = [1000000000; 1000000000].
Proof.
  split; [repeat constructor|]. split; [by vm_compute|]. split; [repeat constructor|by vm_compute].
Qed.

(** C32: end_at is at 2.5 s, the execution picked in time fails, and the retry is picked later. *)
Definition c32_clock (k : nat) : time := Z.of_nat k * 1000000000.
Definition c32_job : job Z :=
  job_set_retry (pt_cron "sec" 0 (CronContext 0 None (Some 2500000000))) (new_interval_retry (Some 3) 0).
Definition c32_es : list (event Z) :=
  [EvStart; EvEnqueue c32_job new_re_run] ++ pt_round pt_ft ++ pt_round (demo_ok 0).
Theorem C32_end_at_refuted :
  Forall plain_event c32_es ∧
  map (run_at ∘ ctx) (runs (after Debug demo_sched "q" c32_clock c32_es)) = [Some 2000; Some 6000].
Proof. split; [repeat constructor|]. by vm_compute. Qed.

(** C33: max_repeat 1; the job has run once; whatever happens from now on, it waits. *)
Definition c33_es : list (event Z) :=
  [EvStart; EvEnqueue (pt_cron "sec" 0 (CronContext 0 (Some 1) None)) new_re_run]
  ++ pt_round (demo_ok 0).
Theorem C33_expired_refuted es :
  ok_hist Debug demo_sched "q" demo_clock initial (c33_es ++ es) →
  Forall (λ e, ¬ submits "a" e ∧ e ≠ EvCancel "a") es →
  let s := demo_after c33_es in let s' := demo_after (c33_es ++ es) in
  length (runs_of "a" s) = 1%nat ∧ runs_of "a" s' = runs_of "a" s ∧
  status_of s' "a" = Some Queued ∧ "a" ∈ qlist "q" (sw s') Queued.
Proof.
  intros Hok HE s s'.
  assert ("a" ∈ qlist "q" (sw s) Queued) as Hin. { apply (bool_decide_unpack _). by vm_compute. }
  destruct (stored (M := Z) (sw s) "a") as [j|] eqn:Ej; [|by vm_compute in Ej].
  assert (∀ k, (reads (sw s) <= k)%nat → ¬ due j (demo_clock k)) as Hd.
  { intros k _ Hd. vm_compute in Ej. injection Ej as <-. destruct Hd as (_&Hd&_). by specialize (Hd 1 eq_refl). }
  destruct (C33_expired_stays Debug demo_sched "q" demo_clock c33_es es "a" j Hok Ej Hin Hd HE)
    as (H1&H2&H3&H4&H5).
  split; [by vm_compute|]. split; [exact H4|]. split; [|exact H3].
  change (status_of s' "a") with (jstatus ∘ ctx <$> stored (M := Z) (sw s') "a").
  assert (stored (sw s') "a" = Some j) as -> by exact H1. cbn. by rewrite H2.
Qed.

(** C34: every second, up to 3 retries; the first execution fails, its retry succeeds: Finished. *)
Definition c34_es : list (event Z) :=
  [EvStart; EvEnqueue (job_set_retry (pt_cron "sec" 0 cron_context_default) (new_interval_retry (Some 3) 0))
    new_re_run] ++ pt_round pt_ft ++ pt_round (demo_ok 0).
Theorem C34_schedule_refuted :
  Forall plain_event c34_es ∧ status_of (demo_after c34_es) "a" = Some Finished ∧
  length (runs (demo_after c34_es)) = 2%nat ∧
  jtype ∘ ctx <$> stored (M := Z) (sw (demo_after c34_es)) "a" = Some (ScheduledAt 3000000).
Proof. split; [repeat constructor|]. vm_compute. repeat split. Qed.

(** ** The hypotheses of the theorems can be met *)

Definition pt_es2 (u : user_result Z) (n : nat) : list (event Z) := concat (repeat (pt_round u) n).

(** C11: scheduled at 2.5 ms, accepted at 1 ms, picked at the third reading (3 ms) or later. *)
Example C11_ex :
  let j := job_schedule_at (dj "a" 0) 2500000 in let es2 := pt_es2 (demo_ok 0) 3 in
  let s := demo_after [EvStart] in let s' := demo_after ([EvStart] ++ EvEnqueue j new_re_run :: es2) in
  ok_hist Debug demo_sched "q" demo_clock initial ([EvStart] ++ EvEnqueue j new_re_run :: es2) ∧
  queues_it s j new_re_run ∧ Forall (λ e, ¬ submits "a" e) es2 ∧
  map (run_at ∘ ctx) (new_runs "a" s s') = [Some 4].
Proof.
  split; [apply plain_ok; repeat constructor|]. split; [split; [done|left; by vm_compute]|].
  split; [repeat constructor; by intros []|by vm_compute].
Qed.

(** C26: two retries; three executions, then Failed. *)
Example C26_ex :
  let j := job_set_retry (dj "a" 0) (new_interval_retry (Some 2) 0) in let es2 := pt_es2 pt_ft 5 in
  let s := demo_after [EvStart] in let s' := demo_after ([EvStart] ++ EvEnqueue j new_re_run :: es2) in
  ok_hist Debug demo_sched "q" demo_clock initial ([EvStart] ++ EvEnqueue j new_re_run :: es2) ∧
  queues_it s j new_re_run ∧
  Forall (λ e, ¬ revives "a" e ∧ default_retry e ∧ (True → all_fail e ∧ e ≠ EvCancel "a")) es2 ∧
  length (new_runs "a" s s') = 3%nat ∧ status_of s' "a" = Some Failed.
Proof.
  split; [apply plain_ok; repeat constructor|]. split; [split; [done|left; by vm_compute]|].
  split; [|vm_compute; repeat split].
  apply Forall_forall. intros e He.
  assert (e = EvTick ∨ e = EvTask 0 pt_ft) as [->| ->].
  { vm_compute in He. repeat (destruct He as [<-|He]; [auto|]). done. }
  - split; [by intros []|]. split; [done|]. done.
  - split; [by intros []|]. split; [by exists true|]. done.
Qed.

(** C25: the state before the manual retry in [c25_es]. *)
Example C25_ex :
  let s := demo_after c25_es1 in ∃ j, stored (M := Z) (sw s) "a" = Some j ∧
    jstatus (ctx j) = Failed ∧ alive s = true ∧ jretry (ctx j) = Some (Retry 1 (Some 1) (Interval 0)).
Proof. eexists. split; [by vm_compute|]. vm_compute. repeat split. Qed.

(** C27, C28, C34: an execution about to end, and the retry that follows. *)
Definition c27_es1 (j : job Z) : list (event Z) :=
  [EvStart; EvEnqueue j new_re_run; EvTick; EvTask 0 pt_ft; EvTask 0 pt_ft; EvTask 0 pt_ft].
Example C27_ex :
  let es1 := c27_es1 (job_set_retry (dj "a" 0) (new_interval_retry (Some 2) 2000000)) in
  let s := demo_after es1 in
  let s' := demo_after (es1 ++ EvTask 0 pt_ft :: pt_es2 pt_ft 3) in
  ∃ t, tasks s !! 0%nat = Some t ∧ alive s = true ∧ t_phase t = AfterHook ∧ reads (sw s) = 3%nat ∧
    jretry (ctx (t_job t)) = Some (Retry 0 (Some 2) (Interval 2000000)) ∧
    map (run_at ∘ ctx) (new_runs "a" s s') = [Some 7].
Proof. eexists. split; [by vm_compute|]. vm_compute. repeat split. Qed.
Example C28_ex :
  let es1 := c27_es1 (job_set_retry (dj "a" 0) (new_exponential_backoff None 2000000)) in
  let s := demo_after es1 in
  let s' := demo_after (es1 ++ EvTask 0 pt_ft :: pt_es2 pt_ft 5) in
  ∃ t, tasks s !! 0%nat = Some t ∧ alive s = true ∧ t_phase t = AfterHook ∧ reads (sw s) = 3%nat ∧
    jretry (ctx (t_job t)) = Some (Retry 0 None (ExponentialBackoff 2000000)) ∧
    map (run_at ∘ ctx) (new_runs "a" s s') = [Some 9].
Proof. eexists. split; [by vm_compute|]. vm_compute. repeat split. Qed.
Example C34_ex :
  let es1 := c27_es1 (job_set_retry (pt_cron "sec" 0 cron_context_default) (new_interval_retry (Some 3) 0)) in
  ∃ t, tasks (demo_after es1) !! 0%nat = Some t ∧ t_phase t = AfterHook ∧ is_cron (t_job t) ∧
    is_Some (jretry (ctx (t_job t))).
Proof. eexists. split; [by vm_compute|]. split; [done|]. split; [done|by eexists]. Qed.

(** C29: the state before the last poll of [c29_es ++ pt_round pt_ft]. *)
Example C29_ex :
  let s := after Debug demo_sched "q" c29_clock
             (c29_es ++ [EvTick; EvTask 0 pt_ft; EvTask 0 pt_ft; EvTask 0 pt_ft]) in
  ∃ t, tasks s !! 0%nat = Some t ∧ alive s = true ∧ t_phase t = AfterHook ∧
    jretry (ctx (t_job t)) = Some (Retry 30 None (ExponentialBackoff 1000)).
Proof. eexists. split; [by vm_compute|]. vm_compute. repeat split. Qed.

(** C30, C31, C32: three executions at the slots 0, 1 s, 2 s (readings one second apart). *)
Example C30_C31_C32_ex :
  let cc := CronContext 0 (Some 3) (Some 100000000000) in
  let j := pt_cron "sec" 0 cc in let es2 := pt_es2 (demo_ok 0) 8 in
  let s := after Debug demo_sched "q" c32_clock [EvStart] in
  let s' := after Debug demo_sched "q" c32_clock ([EvStart] ++ EvEnqueue j new_re_run :: es2) in
  ok_hist Debug demo_sched "q" c32_clock initial ([EvStart] ++ EvEnqueue j new_re_run :: es2) ∧
  queues_it s j new_re_run ∧ Forall (λ e, ¬ revives "a" e) es2 ∧
  (∃ f, demo_sched "sec" = Some f ∧ ∀ t, ∃ u, f t = Some u ∧ t < u ∧ (1000 | u)) ∧
  map slot_of (new_runs "a" s s') = [0; 5000000000; 10000000000] ∧
  status_of s' "a" = Some Queued.
Proof.
  split; [apply plain_ok; repeat constructor|]. split; [split; [done|left; by vm_compute]|].
  split; [repeat constructor; by intros []|].
  split; [|by vm_compute].
  eexists. split; [reflexivity|]. intros t. eexists. split; [reflexivity|]. split.
  - pose proof (Z.mul_succ_div_gt t 1000000000). lia.
  - exists ((t / 1000000000 + 1) * 1000000). lia.
Qed.

Print Assumptions C11_not_early_partial.
Print Assumptions C26_retry_bound.
Print Assumptions C25_manual_retry_partial.
Print Assumptions C27_interval.
Print Assumptions C28_backoff_partial.
Print Assumptions C29_backoff_safe_partial.
Print Assumptions C29_debug_dies.
Print Assumptions C29_release_no_delay.
Print Assumptions C30_max_repeat.
Print Assumptions C31_slots_partial.
Print Assumptions C32_end_at_partial.
Print Assumptions C33_expired_stays.
Print Assumptions C34_schedule_lost.
Print Assumptions C11_not_early_refuted.
Print Assumptions C25_manual_retry_refuted.
Print Assumptions C28_backoff_refuted.
Print Assumptions C29_backoff_safe_refuted.
Print Assumptions C31_slots_refuted.
Print Assumptions C32_end_at_refuted.
Print Assumptions C33_expired_refuted.
Print Assumptions C34_schedule_refuted.
