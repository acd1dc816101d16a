(** Executions that are to be followed by another one, when backend calls fail. *)
From Verif Require Import Spec SpecStray HistFacts FaultFacts CrashFacts FaultCases StrayFacts StrayCases Demo PropCases.

Section theorems.
  Context {M : Type} `{SM : Serde M} {SO : SerdeOk M}.
  Context (prof : profile).
  Context (sched : string → option (time → option time)).
  Context (name : string).
  Context (clock : nat → time).
  Notation go := (sys_run prof sched name (mem_h clock)).
  Notation fstep faults := (sys_step prof sched name (faulty_h clock faults)).
  Notation qlist := (qlist name).
  Notation stored := (@stored M SM).

  (** C85.  The end of an execution that is to be followed by another one: a failed job with retries
      left, an own retry_at naming a time, a cron job with a next slot.  [orig] is the job as it was
      picked, [j] the one that was executed, [nj] the next one.  What is stored, the waiting list and
      the processing list for every way the backend calls may fail.
      Missing: that the job waits for the next execution, which is false (below). *)
  Theorem C85_again_partial faults (s : sys fworld M) i (orig j nj : job M) u :
    let n := ops (sw s) in
    let r := fstep faults s (EvTask i u) in
    let w := fw (sw s) in let w' := fw (sw r.1) in
    let f := fate_of (faults n) (faults (S n)) (faults (S (S n))) in
    let removed := faults n ≠ FBefore ∨ faults (S n) = FOk ∧ faults (S (S n)) ≠ FBefore in
    alive s = true → tasks s !! i = Some (Task orig j AfterHook) → jid orig = jid j → jstatus (ctx j) = Running →
    goes_on sched (clock (reads w)) (clock (S (reads w))) j u nj →
    tasks r.1 = delete i (tasks s) ∧ alive r.1 = true ∧ runs r.1 = runs s ∧
    match f with
    | Waits | Stray => ∃ j' t, stored w' (jid j) = Some j' ∧
        read_back (Job (set_enqueue_at (set_jstatus (ctx nj) Queued) t) (data nj)) j'
    | GivenUp => ∃ j' t, stored w' (jid j) = Some j' ∧
        read_back (Job (set_complete_at (set_jstatus (ctx orig) Failed) t) (data orig)) j'
    | Untouched => stored w' (jid j) = stored w (jid j)
    end ∧
    qlist w' Queued = match f with Waits => jid j :: qlist w Queued | _ => qlist w Queued end ∧
    (removed → qlist w' Running = filter (λ y, y ≠ jid j) (qlist w Running)) ∧
    (¬ removed → qlist w' Running = qlist w Running).
  Proof. exact (again_outcome prof sched name clock faults s i orig j nj u). Qed.

  (** C85, C67, C68.  An execution is the last one or is followed by another one; never both. *)
  Theorem C85_every_end now now2 (j : job M) u :
    in_range now j →
    ((∃ nj, goes_on sched now now2 j u nj) ∨ (∃ jr, ends sched now j u jr)) ∧
    (∀ nj jr, goes_on sched now now2 j u nj → ends sched now j u jr → False).
  Proof. exact (every_end sched now now2 j u). Qed.

  (** C67, C68.  The end of the last execution, of any job.  [orig] is the job as it was picked, [j] the
      one that was executed, [jr] what it is at the end.  After a success the id is taken off the
      processing list before the result is written, after a failure afterwards.  If the write reports
      an error, the job is settled once more, as a failure of [orig].
      Missing: that the job is stored as settled and its slot is free, which is false (C67, C68). *)
  Theorem C67_C68_end_partial faults (s : sys fworld M) i (orig j jr : job M) u :
    let n := ops (sw s) in
    let r := fstep faults s (EvTask i u) in
    let w := fw (sw s) in let w' := fw (sw r.1) in
    let k := if ur_failed u then n else S n in
    let removed :=
      (if ur_failed u then faults n = FOk ∧ faults (S n) ≠ FBefore else faults n ≠ FBefore) ∨
      faults k ≠ FOk ∧ faults (S k) = FOk ∧ faults (S (S k)) ≠ FBefore in
    alive s = true → tasks s !! i = Some (Task orig j AfterHook) → jid orig = jid j →
    ends sched (clock (reads w)) j u jr →
    tasks r.1 = delete i (tasks s) ∧ alive r.1 = true ∧ runs r.1 = runs s ∧
    let ended (j0 : job M) st := ∃ j' t, stored w' (jid j) = Some j' ∧
      read_back (Job (set_complete_at (set_jstatus (ctx j0) st) t) (data j0)) j' in
    match result_of (faults k) (faults (S k)) with
    | Some true => ended jr (if ur_failed u then Failed else Finished)
    | Some false => ended orig Failed
    | None => stored w' (jid j) = stored w (jid j)
    end ∧
    qlist w' Queued = qlist w Queued ∧
    (removed → qlist w' Running = filter (λ y, y ≠ jid j) (qlist w Running)) ∧
    (¬ removed → qlist w' Running = qlist w Running).
  Proof. exact (end_outcome prof sched name clock faults s i orig j jr u). Qed.

  (** C85.  A job that is stored as waiting but is neither in the waiting list nor with a task is not
      executed again, whatever is submitted, retried, cancelled (but the job itself), however often the
      process dies and is started again, although every call succeeds from then on. *)
  Theorem C85_stray_never_runs (s : sys world M) id (j : job M) es :
    (∀ k j', stored (sw s) k = Some j' → jid j' = k) →
    stored (sw s) id = Some j → jstatus (ctx j) = Queued → id ∉ qlist (sw s) Queued →
    Forall (λ t, jid (t_orig t) ≠ id ∧ jid (t_job t) ≠ id) (tasks s) →
    Forall (no_way_back id) es →
    let s' := go s es in
    runs_of id s' = runs_of id s ∧ id ∉ qlist (sw s') Queued ∧ status_of s' id = Some Queued.
  Proof. exact (stray_forever prof sched name clock s id j es). Qed.
End theorems.

(** "a" may be retried once a second, for ever; its first execution fails. *)
Definition a_retry : event Z :=
  EvEnqueue (job_set_retry (demo_job "a" 1) (Retry 0 None (Interval 1000000000))) new_re_run.
Definition a_cron : event Z :=
  EvEnqueue (job_set_type (demo_job "a" 1) (Cron "sec" 0 1 cron_context_default)) new_re_run.
Definition again_hist (e : event Z) : list (event Z) :=
  [EvStart; e; EvTick; EvTask 0 (demo_fail 5); EvTask 0 (demo_fail 5); EvTask 0 (demo_fail 5)].
(** Call 12 takes "a" off the processing list, call 13 writes it, call 14 puts it into the waiting list. *)
Example C85_case :
  let s := case_after (at_call 14 FBefore) (again_hist a_retry) in
  let c := case_after (at_call 14 FBefore) (again_hist a_cron) in
  alive s = true ∧ ops (sw s) = 12%nat ∧ ops (sw c) = 12%nat ∧
  (λ t : task Z, (jid (t_orig t), jid (t_job t), t_phase t, jstatus (ctx (t_job t)))) <$> tasks s !! 0%nat =
    Some ("a", "a", AfterHook, Running) ∧
  (jretry ∘ ctx ∘ t_job <$> tasks s !! 0%nat) = Some (Some (Retry 0 None (Interval 1000000000))) ∧
  (jtype ∘ ctx ∘ t_job <$> tasks c !! 0%nat) = Some (Cron "sec" 0 1 cron_context_default) ∧
  reads (fw (sw s)) = 3%nat.
Proof. by vm_compute. Qed.
Example C85_case_retry (j : job Z) :
  jretry (ctx j) = Some (Retry 0 None (Interval 1000000000)) →
  goes_on demo_sched (demo_clock 3) (demo_clock 4) j (demo_fail 5)
    (Job (set_jtype (set_jretry (ctx j) (Some (Retry 1 None (Interval 1000000000)))) (ScheduledAt 1003000000)) (data j)).
Proof. intros H. by apply (go_retry demo_sched (demo_clock 3) (demo_clock 4) j _ 0 None 1000000000). Qed.
Example C85_case_cron (j : job Z) :
  jretry (ctx j) = None → jtype (ctx j) = Cron "sec" 0 1 cron_context_default →
  goes_on demo_sched (demo_clock 3) (demo_clock 4) j (demo_fail 5)
    (Job (set_jtype (ctx j) (Cron "sec" 1000000000 2 cron_context_default)) (data j)).
Proof. intros H1 H2. by eapply (go_cron demo_sched (demo_clock 3) (demo_clock 4) j _ j "sec" 0 1); [constructor|..]. Qed.
(** A job that has been retried as often as it may be fails for good; so does a cron job that is over. *)
Example C67_C68_case_last (j : job Z) :
  jtype (ctx j) = ScheduledAt 5 → jretry (ctx j) = Some (Retry 2 (Some 2) (Interval 1000000000)) →
  ends demo_sched (demo_clock 3) j (demo_fail 5) j ∧ in_range (demo_clock 3) j.
Proof.
  intros H1 H2. split; [split; [eapply nr_default; [done|done|right; by exists 2]|by rewrite H1]|].
  unfold in_range. rewrite H1, H2. vm_compute. intuition congruence.
Qed.
Example C67_C68_case_cron (j : job Z) :
  jtype (ctx j) = Cron "sec" 0 4 (CronContext 0 (Some 3) None) → jretry (ctx j) = None →
  ends demo_sched (demo_clock 3) j (demo_ok 5) j.
Proof.
  intros H1 H2. split; [by constructor|]. rewrite H1. intros ???? [= <- <- <- <-] _.
  split; [by vm_compute|]. left. by exists 3.
Qed.
Definition seen (s : sys fworld Z) : option status * list string * list string :=
  (jstatus ∘ ctx <$> stored (M := Z) (fw (sw s)) "a", qlist "q" (fw (sw s)) Queued, qlist "q" (fw (sw s)) Running).
(** No failure, and one of every kind. *)
Example C85_case_outcomes e :
  e = a_retry ∨ e = a_cron →
  let f3 f0 f1 f2 n := match n with 12%nat => f0 | 13%nat => f1 | 14%nat => f2 | _ => FOk end in
  let out f0 f1 f2 := seen (case_after (f3 f0 f1 f2) (again_hist e ++ [EvTask 0 (demo_fail 5)])) in
  out FOk FOk FOk = (Some Queued, ["a"], []) ∧
  out FOk FOk FBefore = (Some Queued, [], []) ∧
  out FOk FAfter FBefore = (Some Queued, [], []) ∧
  out FOk FAfter FOk = (Some Failed, [], []) ∧
  out FOk FBefore FBefore = (Some Running, [], []) ∧
  out FBefore FBefore FOk = (Some Running, [], ["a"]).
Proof. by intros [->| ->]; vm_compute. Qed.

(** The last execution of a job that has no retries left: written, taken off the list, put into the
    list of failed jobs; and one of every kind of failure. *)
Definition a_last : event Z :=
  EvEnqueue (job_set_retry (demo_job "a" 1) (Retry 0 (Some 0) (Interval 1000000000))) new_re_run.
Example C67_C68_case_outcomes :
  let f3 f0 f1 f2 n := match n with 12%nat => f0 | 13%nat => f1 | 14%nat => f2 | _ => FOk end in
  let out f0 f1 f2 := seen (case_after (f3 f0 f1 f2) (again_hist a_last ++ [EvTask 0 (demo_fail 5)])) in
  out FOk FOk FOk = (Some Failed, [], []) ∧
  out FOk FBefore FOk = (Some Failed, [], ["a"]) ∧
  out FBefore FOk FOk = (Some Failed, [], []) ∧
  out FBefore FBefore FOk = (Some Running, [], ["a"]) ∧
  out FAfter FBefore FOk = (Some Failed, [], ["a"]).
Proof. by vm_compute. Qed.

(** C85: the last call has no effect (its error is only logged).  "a" is stored as waiting; without a
    cancellation no event executes it again. *)
Lemma stray_stays f es0 es :
  let s := from_now_on (case_after f es0) in
  status_of s "a" = Some Queued → qlist "q" (sw s) Queued = [] → tasks s = [] → Forall (no_way_back "a") es →
  runs_of "a" (sys_run Debug demo_sched "q" (mem_h demo_clock) s es) = runs_of "a" s.
Proof.
  intros s Hs Hq Ht He. unfold status_of in Hs.
  destruct (stored (M := Z) (sw s) "a") as [j|] eqn:Ej; [|done]. injection Hs as Hs.
  eapply C85_stray_never_runs; try done.
  - exact (keyed_faulty Debug demo_sched "q" demo_clock f es0).
  - rewrite Hq. by apply not_elem_of_nil.
  - by rewrite Ht.
Qed.
Theorem C85_again_refuted e es :
  e = a_retry ∨ e = a_cron →
  let s := from_now_on (case_after (at_call 14 FBefore) (again_hist e ++ [EvTask 0 (demo_fail 5)])) in
  status_of s "a" = Some Queued ∧ alive s = true ∧ map jid (runs s) = ["a"] ∧
  (Forall (no_way_back "a") es →
   runs_of "a" (sys_run Debug demo_sched "q" (mem_h demo_clock) s es) = runs_of "a" s).
Proof.
  intros He s. subst s. split; [by destruct He as [->| ->]; vm_compute|]. split; [by destruct He as [->| ->]; vm_compute|].
  split; [by destruct He as [->| ->]; vm_compute|].
  apply stray_stays; by destruct He as [->| ->]; vm_compute.
Qed.
(** Without the failure "a" runs again; and after the failure nothing short of cancelling it helps:
    it is submitted again and retried, the process dies and restarts. *)
Example C85_case_ok :
  map jid (runs (case_after (λ _, FOk) (again_hist a_cron ++ [EvTask 0 (demo_fail 5)]))) = ["a"] ∧
  no_way_back "a" a_cron ∧ no_way_back (M := Z) "a" (EvRetry "a") ∧ no_way_back (M := Z) "a" EvCrash ∧
  no_way_back "a" (EvEnqueue (demo_job "a" 7) (EnqueueConfig true true)).
Proof. by vm_compute. Qed.
(** After the failure "a" can be cancelled, and then submitted and executed. *)
Example C85_case_way_back :
  map jid (runs (case_after (at_call 14 FBefore) (again_hist a_cron ++ [EvTask 0 (demo_fail 5); EvCancel "a"; run_a; EvTick;
    EvTask 0 (demo_ok 5); EvTask 0 (demo_ok 5)]))) = ["a"; "a"].
Proof. by vm_compute. Qed.

Print Assumptions C85_again_partial.
Print Assumptions C85_stray_never_runs.
Print Assumptions C85_every_end.
Print Assumptions C67_C68_end_partial.
Print Assumptions C85_again_refuted.
