(** Properties of the queue's timer: ticks and start times in real time. *)
From Verif Require Import SpecTimer HistFacts TimerFacts Demo.

Section any_backend.
  Context {M : Type} `{SM : Serde M}.
  Context (prof : profile).
  Context (sched : string → option (time → option time)).
  Context (name : string).
  Context {W : Type} (h : handler W) (w0 : W).
  Notation trun := (timed_run (M := M) prof sched name h).
  Notation untimed := (untimed (M := M) prof sched name h).
  Notation beats := (beats (M := M) prof sched name h).
  Notation throughout := (throughout (M := M) prof sched name h).
  Notation init := (timed_init w0).
  Implicit Types es : list (tevent M).

  (** C75.  After any history: one pending timer if the queue is alive, none otherwise; the queue itself
      is in a state that the same events, with a tick for each timer that fired, lead to (so that all
      properties of histories apply). *)
  Theorem C75_one_timer es :
    let t := trun init es in
    length (timers t) = (if alive (tq t) then 1%nat else 0%nat) ∧
    tq t = sys_run prof sched name h (sys_init w0) (untimed init es).
  Proof.
    cbv zeta. split; [|exact (tq_untimed prof sched name h init es)].
    pose proof (one_run prof sched name h init es (one_init w0)) as H. unfold one_timer in H.
    destruct (alive _); [by destruct H as [d ->]|by rewrite H].
  Qed.

  (** C76.  Between the end of a tick (or of the start) and the next tick of a life of the queue at least the
      period configured at that end passes. *)
  Theorem C76_ticks_spaced es : spaced (beats init es).
  Proof. exact (beats_spaced prof sched name h init es (one_init w0)). Qed.

  (** C79, what holds instead: whatever happens to a living queue (changes of the period included), there
      is no tick before the pending deadline, which stays as it is. *)
  Theorem C79_no_tick_before_partial es0 es d :
    let t := trun init es0 in
    timers t = [d] → throughout (λ t, alive (tq t) = true) t es → tnow t + elapsed es < d →
    EvTick ∉ untimed t es ∧ timers (trun t es) = [d].
  Proof. exact (no_tick_before prof sched name h (trun init es0) es d (one_run prof sched name h init es0 (one_init w0))). Qed.

  (** C77, ticks: while the queue lives and its runtime is never more than [late] late, every window longer
      than [D] + [late] contains a tick, in its first [D] + [late]; [D] bounds the periods ever configured. *)
  Theorem C77_tick_in_window es0 es D late :
    let t := trun init es0 in
    tick_period wq_config_default <= D → Forall (period_within D) es0 →
    throughout (punctual late) t es → D + late < elapsed es →
    ∃ es1 e es2, es = es1 ++ e :: es2 ∧ elapsed es1 <= D + late ∧ ticks_at (trun t es1) e.
  Proof.
    intros t HD HE Hall He.
    destruct (tick_in_window prof sched name h D late t es HD) as (es1 & e & es2 & H1 & H2 & _ & H3); try done.
    - apply one_run, one_init.
    - apply within_run; [done|done|by apply within_init].
    - eauto 10.
  Qed.
End any_backend.

Section theorems.
  Context {M : Type} `{SM : Serde M} {SO : SerdeOk M}.
  Context (prof : profile).
  Context (sched : string → option (time → option time)).
  Context (name : string).
  Context (clock : nat → time).
  Notation trun := (timed_run (M := M) prof sched name (mem_h clock)).
  Notation untimed := (untimed (M := M) prof sched name (mem_h clock)).
  Notation throughout := (throughout (M := M) prof sched name (mem_h clock)).
  Notation ok_hist := (ok_hist prof sched name clock).
  Notation arrivals := (arrivals prof sched name clock).
  Notation qlist := (qlist name).
  Notation stored := (@stored M SM).
  Notation init := (timed_init world_empty).
  Implicit Types es : list (tevent M).

  (** C77.  A waiting job that is due: within one period (and the runtime's lateness) there is a tick that
      starts it, or uses up all slots that are free. *)
  Theorem C77_starts_within_period es0 es D late id j :
    let t := trun init es0 in
    ok_hist initial (untimed init (es0 ++ es)) → tick_period wq_config_default <= D →
    Forall (period_within D) (es0 ++ es) → throughout (punctual late) t es → D + late < elapsed es →
    id ∈ qlist (sw (tq t)) Queued → stored (sw (tq t)) id = Some j →
    (∀ k, (reads (sw (tq t)) <= k)%nat → due j (clock k)) →
    Forall (λ e, ¬ submits id e ∧ e ≠ EvCancel id) (untimed t es) →
    Z.of_nat (length (qlist (sw (tq t)) Queued) + arrivals (tq t) (untimed t es)) <= i32_max →
    ∃ es1 e es2, es = es1 ++ e :: es2 ∧ elapsed es1 <= D + late ∧ ticks_at (trun t es1) e ∧
      let s1 := tq (trun t es1) in let s2 := tq (trun t (es1 ++ [e])) in
      id ∈ qlist (sw s2) Running ∨ length (tasks s2) = (length (tasks s1) + free_slots name s1)%nat.
  Proof. exact (one_period prof sched name clock es0 es D late id j). Qed.

  (** C78.  If in addition every tick finds a free slot and takes at most [C], the job is started within as many
      periods (with lateness and [C]) as there are waiting ids and arrivals. *)
  Theorem C78_response_time es0 es D late C id j :
    let t := trun init es0 in
    let n := (length (qlist (sw (tq t)) Queued) + arrivals (tq t) (untimed t es))%nat in
    ok_hist initial (untimed init (es0 ++ es)) → tick_period wq_config_default <= D → 0 <= late → 0 <= C →
    Forall (period_within D) (es0 ++ es) → Forall (tick_within C) es → throughout (punctual late) t es →
    always_free prof sched name (mem_h clock) (free_slots name) t es → Z.of_nat n * (D + late + C) < elapsed es →
    id ∈ qlist (sw (tq t)) Queued → stored (sw (tq t)) id = Some j →
    (∀ k, (reads (sw (tq t)) <= k)%nat → due j (clock k)) →
    Forall (λ e, ¬ submits id e ∧ e ≠ EvCancel id) (untimed t es) → Z.of_nat n <= i32_max →
    ∃ es1 es2, es = es1 ++ es2 ∧ id ∈ qlist (sw (tq (trun t es1))) Running.
  Proof. exact (response_time prof sched name clock es0 es D late C id j). Qed.
End theorems.

(** ** Refutation and concrete cases *)

Notation ms n := (n * 1000000).
Notation pt_run := (timed_run (M := Z) Debug demo_sched "q" (mem_h demo_clock)).
Notation pt_init := (timed_init (M := Z) world_empty).

(** C79: the period is an hour; it is set to 1 ms when the timer has just been armed; the next 59 minutes
    there is no tick, and the job waits. *)
Definition hour : Z := ms 3600000.
Definition pt_before : list (tevent Z) :=
  [TEv EvStart 0; TEv (EvConfig (WqConfig hour 20)) 0; TPass (ms 100); TFire 0 0].
Definition pt_slow : list (tevent Z) :=
  [TEv (EvConfig (WqConfig (ms 1) 20)) 0; TEv (EvEnqueue (demo_job "a" 0) new_re_run) 0; TPass (ms 3540000); TFire 0 0].
Theorem C79_new_period_at_once_refuted :
  let t := pt_run pt_init pt_before in let t' := pt_run t pt_slow in
  untimed Debug demo_sched "q" (mem_h demo_clock) t pt_slow =
    [EvConfig (WqConfig (ms 1) 20); EvEnqueue (demo_job "a" 0) new_re_run] ∧
  process_tick_duration (cfg (tq t')) = ms 1 ∧ qlist "q" (sw (tq t')) Queued = ["a"] ∧ tasks (tq t') = [] ∧
  elapsed pt_slow = ms 3540000 ∧ timers t' = [ms 100 + hour].
Proof. by vm_compute. Qed.
(** The general statement's hypotheses hold in this case. *)
Example C79_case :
  let t := pt_run pt_init pt_before in
  timers t = [ms 100 + hour] ∧ throughout Debug demo_sched "q" (mem_h demo_clock) (λ t, alive (tq t) = true) t pt_slow ∧
  tnow t + elapsed pt_slow < ms 100 + hour.
Proof. vm_compute. repeat split. Qed.

(** A start, four ticks, a change of the period, a crash, a new start. *)
Definition pt_beats : list (tevent Z) :=
  [TEv EvStart (ms 2); TPass (ms 100); TFire 0 (ms 3); TPass (ms 50); TFire 0 0; TPass (ms 70); TFire 0 0;
   TEv (EvConfig (WqConfig (ms 10) 20)) 0; TPass (ms 100); TFire 0 0; TPass (ms 10); TFire 0 0;
   TPass 5; TEv EvCrash 0; TFire 0 0; TPass (ms 200); TEv EvStart 0; TEv EvStart 0; TPass (ms 100); TFire 0 0; TFire 0 0].
Example C75_C76_case :
  beats Debug demo_sched "q" (mem_h demo_clock) pt_init pt_beats =
    [Beat true 0 (ms 2) (ms 100); Beat false (ms 102) (ms 105) (ms 100); Beat false (ms 225) (ms 225) (ms 100);
     Beat false (ms 325) (ms 325) (ms 10); Beat false (ms 335) (ms 335) (ms 10);
     Beat true (ms 535 + 5) (ms 535 + 5) (ms 100); Beat false (ms 635 + 5) (ms 635 + 5) (ms 100)] ∧
  timers (pt_run pt_init pt_beats) = [ms 735 + 5].
Proof. by vm_compute. Qed.

(** "a" and "b" wait with one slot; the runtime is at most 5 ms late. *)
Definition pt_es0 : list (tevent Z) :=
  [TEv EvStart 0; TEv (EvConfig (WqConfig (ms 50) 1)) 0;
   TEv (EvEnqueue (demo_job "a" 0) new_re_run) 0; TEv (EvEnqueue (demo_job "b" 0) new_re_run) 0; TPass (ms 100); TFire 0 0; TPass (ms 1)].
Definition pt_polls : list (tevent Z) := [TEv (EvTask 0 (demo_ok 1)) 0; TEv (EvTask 0 (demo_ok 1)) 0; TEv (EvTask 0 (demo_ok 1)) 0; TEv (EvTask 0 (demo_ok 1)) 0].
Definition pt_es : list (tevent Z) :=
  pt_polls ++ [TPass (ms 53); TFire 0 (ms 1)] ++ pt_polls ++ [TPass (ms 54); TFire 0 0].
(** Decidable forms of the hypotheses, for computing. *)
Definition punctualb (late : Z) (t : timed world Z) : bool :=
  alive (tq t) && forallb (λ d, tnow t <=? d + late) (timers t).
Lemma punctualb_ok late t : punctualb late t = true → punctual late t.
Proof.
  unfold punctualb, punctual. intros [H1 H2]%andb_true_iff. split; [done|]. intros d Hd.
  rewrite forallb_forall in H2. apply elem_of_list_In in Hd. specialize (H2 d Hd). lia.
Qed.
Fixpoint throughoutb (p : timed world Z → bool) (t : timed world Z) (es : list (tevent Z)) : bool :=
  p t && match es with [] => true | e :: es' => throughoutb p (timed_step Debug demo_sched "q" (mem_h demo_clock) t e) es' end.
Lemma throughoutb_ok p (P : timed world Z → Prop) t es :
  (∀ t, p t = true → P t) → throughoutb p t es = true → throughout Debug demo_sched "q" (mem_h demo_clock) P t es.
Proof.
  intros Hp. revert t. induction es as [|e es IH]; intros t [H1 H2]%andb_true_iff; (split; [by apply Hp|]); [done|]. by apply IH.
Qed.
Example C77_C78_case :
  let t := pt_run pt_init pt_es0 in
  ok_hist Debug demo_sched "q" demo_clock initial (untimed Debug demo_sched "q" (mem_h demo_clock) pt_init (pt_es0 ++ pt_es)) ∧
  Forall (period_within (ms 100)) (pt_es0 ++ pt_es) ∧
  throughout Debug demo_sched "q" (mem_h demo_clock) (punctual (ms 5)) t pt_es ∧
  ms 100 + ms 5 < elapsed pt_es ∧
  qlist "q" (sw (tq t)) Queued = ["b"] ∧
  (∀ k, due (demo_job "b" 0) (demo_clock k)) ∧
  arrivals Debug demo_sched "q" demo_clock (tq t) (untimed Debug demo_sched "q" (mem_h demo_clock) t pt_es) = 0%nat ∧
  (* started by the first tick of the window *)
  qlist "q" (sw (tq (pt_run t (pt_polls ++ [TPass (ms 53); TFire 0 (ms 1)])))) Running = ["b"].
Proof.
  cbv zeta. split; [apply plain_ok; vm_compute; repeat constructor|].
  split. { repeat (apply List.Forall_cons; [done|]). constructor. }
  split. { apply (throughoutb_ok (punctualb (ms 5))); [apply punctualb_ok|by vm_compute]. }
  split; [by vm_compute|]. split; [by vm_compute|]. split; [done|]. split; by vm_compute.
Qed.
Fixpoint always_freeb (t : timed world Z) (es : list (tevent Z)) : bool :=
  match es with
  | [] => true
  | e :: es' => implb (match e with TFire _ _ => true | _ => false end) (1 <=? free_slots "q" (tq t))%nat &&
      always_freeb (timed_step Debug demo_sched "q" (mem_h demo_clock) t e) es'
  end.
Lemma always_freeb_ok t es :
  always_freeb t es = true → always_free Debug demo_sched "q" (mem_h demo_clock) (free_slots "q") t es.
Proof.
  revert t. induction es as [|e es IH]; intros t; [done|]. cbn [always_freeb always_free].
  intros [H1 H2]%andb_true_iff. split; [|by apply IH]. intros (i & d & -> & _). by apply Nat.leb_le.
Qed.
Example C78_case_free :
  always_free Debug demo_sched "q" (mem_h demo_clock) (free_slots "q") (pt_run pt_init pt_es0) pt_es ∧
  Forall (tick_within (ms 1)) pt_es ∧ 1 * (ms 100 + ms 5 + ms 1) < elapsed pt_es.
Proof.
  split; [apply always_freeb_ok; by vm_compute|]. split; [|by vm_compute].
  repeat (apply List.Forall_cons; [done|]). constructor.
Qed.

Print Assumptions C75_one_timer.
Print Assumptions C76_ticks_spaced.
Print Assumptions C79_no_tick_before_partial.
Print Assumptions C77_tick_in_window.
Print Assumptions C77_starts_within_period.
Print Assumptions C78_response_time.
Print Assumptions C79_new_period_at_once_refuted.
