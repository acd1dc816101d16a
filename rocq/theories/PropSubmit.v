(** Properties of the API calls: submitting, cancelling, updating, retrying, reading. *)
From Verif Require Import Spec SubmitFacts ApiFacts Demo.

Section theorems.
  Context {M : Type} `{SM : Serde M} {SO : SerdeOk M}.
  Context (prof : profile).
  Context (sched : string → option (time → option time)).
  Context (name : string).
  Context (clock : nat → time).
  Notation step := (sys_step prof sched name (mem_h clock)).
  Notation update := (update_job prof sched name (mem_h clock)).
  Notation go := (sys_run prof sched name (mem_h clock)).
  Notation after := (after prof sched name clock).
  Notation ok_hist := (ok_hist prof sched name clock).
  Notation qlist := (qlist name).
  Notation times_in := (times_in name).
  Notation only_id := (only_id name).
  Notation stored := (@stored M SM).
  Implicit Types s : sys world M.

  (** C06, in every state of the system in which the actor is alive. *)
  Theorem C06_new_job_queued_once s j c :
    alive s = true → stored (sw s) (jid j) = None →
    let r := step s (EvEnqueue j c) in
    r.2 = RUnit (Ok tt) ∧
    (∃ j' t, stored (sw r.1) (jid j) = Some j' ∧
       read_back (Job (set_enqueue_at (set_jstatus (ctx j) Queued) t) (data j)) j' ∧
       (step r.1 (EvGet (jid j))).2 = RJob (Some j')) ∧
    (∀ st, qlist (sw r.1) st =
           if decide (st = Queued) then jid j :: qlist (sw s) Queued else qlist (sw s) st) ∧
    only_id (jid j) s r.1.
  Proof. exact (submit_new prof sched name clock s j c). Qed.

  (** C08: a done job submitted with re_run is queued once more, with the new data ... *)
  Theorem C08_done_job_requeued s j ex c :
    alive s = true → stored (sw s) (jid j) = Some ex → done_status (jstatus (ctx ex)) →
    re_run c = true →
    let r := step s (EvEnqueue j c) in
    r.2 = RUnit (Ok tt) ∧
    (∃ j' t, stored (sw r.1) (jid j) = Some j' ∧
       read_back (Job (set_enqueue_at (set_jstatus (ctx j) Queued) t) (data j)) j') ∧
    (∀ st, qlist (sw r.1) st =
           if decide (st = Queued) then jid j :: qlist (sw s) Queued else qlist (sw s) st) ∧
    only_id (jid j) s r.1.
  Proof. exact (submit_done prof sched name clock s j ex c). Qed.

  (** ... in reachable states that is the only pending execution ... *)
  Theorem C08_exactly_one_pending es j ec :
    ok_hist initial (es ++ [EvEnqueue j ec]) → alive (after es) = true →
    stored (sw (after es)) (jid j) = None ∨
      (∃ ex, stored (sw (after es)) (jid j) = Some ex ∧ done_status (jstatus (ctx ex)) ∧
             re_run ec = true) →
    let s' := after (es ++ [EvEnqueue j ec]) in
    times_in s' Queued (jid j) = 1%nat ∧ times_in s' Running (jid j) = 0%nat.
  Proof. exact (rerun_pending prof sched name clock es j ec). Qed.

  (** ... and without re_run nothing is queued: the id does not run until somebody submits or retries
      it again. *)
  Theorem C08_skip_if_finished es j ec ex es' :
    ok_hist initial (es ++ EvEnqueue j ec :: es') →
    stored (sw (after es)) (jid j) = Some ex → done_status (jstatus (ctx ex)) → re_run ec = false →
    Forall (λ e, ¬ revives (jid j) e) es' →
    runs_of (jid j) (after (es ++ EvEnqueue j ec :: es')) = runs_of (jid j) (after es).
  Proof. exact (skip_never_runs prof sched name clock es j ec ex es'). Qed.

  (** C18. *)
  Theorem C18_canceled_job_does_not_run es id es' :
    ok_hist initial (es ++ EvCancel id :: es') → alive (after es) = true →
    status_of (after es) id = Some Queued →
    Forall (λ e, ¬ revives id e) es' →
    runs_of id (after (es ++ EvCancel id :: es')) = runs_of id (after es) ∧
    status_of (after (es ++ EvCancel id :: es')) id = Some Canceled ∧
    tasks_of id (after (es ++ EvCancel id :: es')) = [].
  Proof. exact (canceled_never_runs prof sched name clock es id es'). Qed.

  (** C19, the true part: on a queued job cancel takes effect, otherwise nothing at all changes.
      Missing: Ok does not tell these cases apart. *)
  Theorem C19_cancel_partial s id :
    (∀ j, alive s = true → stored (sw s) id = Some j → jid j = id → jstatus (ctx j) = Queued →
       let r := step s (EvCancel id) in
       r.2 = RUnit (Ok tt) ∧
       (∃ j' t, stored (sw r.1) id = Some j' ∧
         read_back (Job (set_cancel_at (set_jstatus (ctx j) Canceled) t) (data j)) j') ∧
       (∀ st, qlist (sw r.1) st =
              if decide (st = Queued) then filter (λ x, x ≠ id) (qlist (sw s) Queued)
              else qlist (sw s) st) ∧
       only_id id s r.1) ∧
    ((∀ j, stored (sw s) id = Some j → jstatus (ctx j) ≠ Queued) →
       (step s (EvCancel id)).1 = s ∧
       (alive s = true → (step s (EvCancel id)).2 = RUnit (Ok tt))).
  Proof.
    exact (conj (cancel_queued prof sched name clock s id) (cancel_other prof sched name clock s id)).
  Qed.

  (** C20. *)
  Theorem C20_update_queued es id j d :
    ok_hist initial es → alive (after es) = true →
    stored (sw (after es)) id = Some j → jstatus (ctx j) = Queued →
    let r := update (after es) id d None in
    r.2 = RUnit (Ok tt) ∧
    stored (sw r.1) id = Some (Job (ctx j) d) ∧
    (∀ st, qlist (sw r.1) st = qlist (sw (after es)) st) ∧ only_id id (after es) r.1 ∧
    ∀ es', ok_hist r.1 es' → Forall (λ e, ¬ submits id e) es' →
      runs_of id (go r.1 es') = runs_of id (after es) ∨
      ∃ j' rest, runs_of id (go r.1 es') = runs_of id (after es) ++ j' :: rest ∧ data j' = d.
  Proof. exact (update_queued prof sched name clock es id j d). Qed.

  (** C21, C22, C23, the true part: update_job with a context of the same id changes that id only; the
      data is stored unless the job is running, and then nothing changes; lists stay as they are
      unless the job is done. *)
  Theorem C21_C22_C23_update_partial s id j d c :
    alive s = true → stored (sw s) id = Some j → jid j = id →
    match c with Some c' => job_id c' = id | None => True end →
    let r := update s id d c in
    r.2 = RUnit (Ok tt) ∧ only_id id s r.1 ∧
    (jstatus (ctx j) = Running → r.1 = s) ∧
    (jstatus (ctx j) ≠ Running → ∃ j', stored (sw r.1) id = Some j' ∧ data j' = d) ∧
    (¬ done_status (jstatus (ctx j)) → ∀ st, qlist (sw r.1) st = qlist (sw s) st).
  Proof. exact (update_stores prof sched name clock s id j d c). Qed.

  (** C24. *)
  Theorem C24_retry_done s id j :
    alive s = true → stored (sw s) id = Some j → jid j = id → done_status (jstatus (ctx j)) →
    let r := step s (EvRetry id) in
    r.2 = RBool (Ok true) ∧
    (∃ j' t, stored (sw r.1) id = Some j' ∧
      read_back (Job (set_enqueue_at (set_jstatus (ctx j) Queued) t) (data j)) j') ∧
    (∀ st, qlist (sw r.1) st =
           if decide (st = Queued) then id :: qlist (sw s) Queued
           else if decide (st = jstatus (ctx j)) then filter (λ x, x ≠ id) (qlist (sw s) st)
           else qlist (sw s) st) ∧
    only_id id s r.1.
  Proof. exact (retry_done prof sched name clock s id j). Qed.
  Theorem C24_retry_not_done s id :
    (∀ j, stored (sw s) id = Some j → ¬ done_status (jstatus (ctx j))) →
    (step s (EvRetry id)).1 = s ∧
    (alive s = true → (step s (EvRetry id)).2 = RBool (Ok false)).
  Proof. exact (retry_other prof sched name clock s id). Qed.
  Theorem C24_retry_pending_once es id j :
    ok_hist initial es → alive (after es) = true →
    stored (sw (after es)) id = Some j → done_status (jstatus (ctx j)) →
    let s' := after (es ++ [EvRetry id]) in
    times_in s' Queued id = 1%nat ∧ times_in s' Running id = 0%nat ∧
    times_in s' (jstatus (ctx j)) id = 0%nat.
  Proof. exact (retry_pending prof sched name clock es id j). Qed.

  (** C35: what is written can be read back, and is the same up to microseconds ... *)
  Theorem C35_round_trip (j : job M) :
    ∃ v j', enc_job j = Some v ∧ dec_job v = Some j' ∧ read_back j j'.
  Proof. exact (round_trip j). Qed.
  (** ... and exactly the same if its times are whole microseconds. *)
  Theorem C35_round_trip_exact (j j' : job M) :
    read_back j j' →
    match jtype (ctx j) with
    | Normal => True
    | ScheduledAt t => (1000 | t)
    | Cron _ n _ cc => (1000 | n) ∧ match end_at cc with Some t => (1000 | t) | None => True end
    end →
    match jretry (ctx j) with
    | Some (Retry _ _ (Interval d)) | Some (Retry _ _ (ExponentialBackoff d)) => (1000 | d)
    | None => True
    end → j' = j.
  Proof. exact (read_back_exact j j'). Qed.

  (** C54. *)
  Theorem C54_get_is_pure s id : (step s (EvGet id)).1 = s.
  Proof. exact (f_equal fst (step_get prof sched name clock s id)). Qed.
  Theorem C54_unknown_id s id d c :
    stored (sw s) id = None →
    (step s (EvCancel id)).1 = s ∧ (step s (EvRetry id)).1 = s ∧ (update s id d c).1 = s.
  Proof. exact (unknown_id prof sched name clock s id d c). Qed.
End theorems.

(** ** Refutations *)
Notation demo_update := (update_job Debug demo_sched "q" (mem_h demo_clock)).
Notation dj := demo_job.

(** C19: a job is picked, cancel_job answers Ok, and then the user code runs. *)
Theorem C19_cancel_refuted :
  ∃ es es', Forall plain_event (es ++ EvCancel "a" :: es') ∧
    (demo_step (demo_after es) (EvCancel "a")).2 = RUnit (Ok tt) ∧
    Forall (λ e, ¬ revives "a" e) es' ∧
    runs_of "a" (demo_after es) = [] ∧
    length (runs_of "a" (demo_after (es ++ EvCancel "a" :: es'))) = 1%nat.
Proof.
  exists [EvStart; EvEnqueue (dj "a" 1) new_re_run; EvTick], (demo_polls 0 (demo_ok 2)).
  split; [repeat constructor|]. split; [by vm_compute|]. split; [|vm_compute; by split].
  repeat constructor; intros [].
Qed.

(** C21: update_job answers Ok, but neither the stored data nor the data of any later execution is
    the new data: it is lost. *)
Theorem C21_update_running_refuted :
  ∃ es es' d, Forall plain_event (es ++ es') ∧
    let r := demo_update (demo_after es) "a" d None in
    r.2 = RUnit (Ok tt) ∧
    (data <$> stored (sw r.1) "a") = Some 1 ∧
    (data <$> stored (sw (sys_run Debug demo_sched "q" (mem_h demo_clock) r.1 es')) "a") = Some 2.
Proof.
  exists [EvStart; EvEnqueue (dj "a" 1) new_re_run; EvTick], (demo_polls 0 (demo_ok 2)), 7.
  split; [repeat constructor|]. vm_compute; repeat split.
Qed.

(** C22: updating a finished job makes it run again. *)
Theorem C22_update_done_refuted :
  ∃ es es' d, Forall plain_event (es ++ es') ∧ Forall (λ e, ¬ revives "a" e) es' ∧
    status_of (demo_after es) "a" = Some Finished ∧
    length (runs_of "a" (demo_after (es ++ es'))) = 1%nat ∧
    let r := demo_update (demo_after es) "a" d None in
    length (runs_of "a" (sys_run Debug demo_sched "q" (mem_h demo_clock) r.1 es')) = 2%nat.
Proof.
  exists ([EvStart; EvEnqueue (dj "a" 1) new_re_run; EvTick] ++ demo_polls 0 (demo_ok 2)),
    (EvTick :: demo_polls 0 (demo_ok 3)), 7.
  split; [repeat constructor|]. split; [repeat constructor; intros []|]. vm_compute; repeat split.
Qed.

(** C23: update_job of "a" with a context that names "b" changes "b" and not "a". *)
Theorem C23_update_context_refuted :
  ∃ es c d, Forall plain_event es ∧
    let s := demo_after es in
    let r := demo_update s "a" d (Some c) in
    r.2 = RUnit (Ok tt) ∧ stored (sw r.1) "a" = stored (M := Z) (sw s) "a" ∧
    (data <$> stored (sw s) "b") = Some 2 ∧ (data <$> stored (sw r.1) "b") = Some d.
Proof.
  exists [EvStart; EvEnqueue (dj "a" 1) new_re_run; EvEnqueue (dj "b" 2) new_re_run],
    (context_new "b" 0), 7.
  split; [repeat constructor|]. vm_compute; repeat split.
Qed.

(** C51: for every payload that does not serialize or is not read back, run() answers Ok and queues the
    id, but the job cannot be read. *)
Theorem C51_unserializable_refuted {M} `{SM : Serde M} prof sched name clock (s : sys world M) j c :
  alive s = true → stored (sw s) (jid j) = None → unreadable (data j) →
  let r := sys_step prof sched name (mem_h clock) s (EvEnqueue j c) in
  r.2 = RUnit (Ok tt) ∧ stored (sw r.1) (jid j) = None ∧
  qlist name (sw r.1) Queued = jid j :: qlist name (sw s) Queued.
Proof. exact (submit_unserializable prof sched name clock s j c). Qed.

(** ** Concrete cases *)
Definition ex_wait : list (event Z) :=
  [EvStart; EvEnqueue (dj "a" 1) new_re_run; EvEnqueue (dj "b" 2) new_re_run].
Definition ex_done : list (event Z) := ex_wait ++ [EvTick] ++ demo_polls 0 (demo_ok 5).

Example C06_example :
  alive (demo_after ex_wait) = true ∧ stored (M := Z) (sw (demo_after ex_wait)) "c" = None ∧
  let r := demo_step (demo_after ex_wait)
             (EvEnqueue (job_schedule_at (dj "c" 3) 1234567) new_skip_if_finished) in
  qlist "q" (sw r.1) Queued = ["c"; "b"; "a"] ∧
  (data <$> stored (sw r.1) "c") = Some 3 ∧
  (jtype ∘ ctx <$> stored (M := Z) (sw r.1) "c") = Some (ScheduledAt 1234000).
Proof. vm_compute; repeat split. Qed.

Example C08_example :
  Forall plain_event (ex_done ++ [EvEnqueue (dj "a" 9) new_re_run]) ∧
  status_of (demo_after ex_done) "a" = Some Finished ∧ alive (demo_after ex_done) = true ∧
  let s' := demo_after (ex_done ++ [EvEnqueue (dj "a" 9) new_re_run]) in
  times_in "q" s' Queued "a" = 1%nat ∧ (data <$> stored (sw s') "a") = Some 9.
Proof. split; [repeat constructor|]. vm_compute; repeat split. Qed.
Example C08_skip_example :
  let es' := [EvTick; EvTick] ++ demo_polls 0 (demo_ok 7) in
  Forall plain_event (ex_done ++ EvEnqueue (dj "a" 9) new_skip_if_finished :: es') ∧
  Forall (λ e, ¬ revives "a" e) es' ∧
  length (runs_of "a" (demo_after (ex_done ++ EvEnqueue (dj "a" 9) new_skip_if_finished :: es'))) = 1%nat ∧
  length (runs_of "b" (demo_after (ex_done ++ EvEnqueue (dj "a" 9) new_skip_if_finished :: es'))) = 1%nat.
Proof.
  split; [repeat constructor|]. split; [repeat constructor; intros []|]. vm_compute; by split.
Qed.

Example C18_example :
  let es' := [EvTick; EvTick] ++ demo_polls 0 (demo_ok 7) in
  Forall plain_event (ex_wait ++ EvCancel "a" :: es') ∧ alive (demo_after ex_wait) = true ∧
  status_of (demo_after ex_wait) "a" = Some Queued ∧ Forall (λ e, ¬ revives "a" e) es' ∧
  runs_of "a" (demo_after (ex_wait ++ EvCancel "a" :: es')) = [] ∧
  length (runs_of "b" (demo_after (ex_wait ++ EvCancel "a" :: es'))) = 1%nat.
Proof.
  split; [repeat constructor|]. split; [by vm_compute|]. split; [by vm_compute|].
  split; [repeat constructor; intros []|]. vm_compute; by split.
Qed.
Example C19_example :
  let r := demo_step (demo_after ex_wait) (EvCancel "a") in
  qlist "q" (sw (demo_after ex_wait)) Queued = ["b"; "a"] ∧ qlist "q" (sw r.1) Queued = ["b"] ∧
  (demo_step r.1 (EvCancel "a")).1 = r.1.
Proof.
  split; [by vm_compute|]. split; [by vm_compute|].
  apply cancel_other. intros j Hj.
  assert (Some (jstatus (ctx j)) = Some Canceled) as E.
  { transitivity (jstatus ∘ ctx <$> stored (M := Z) (sw (demo_step (demo_after ex_wait) (EvCancel "a")).1) "a");
      [by rewrite Hj|by vm_compute]. }
  congruence.
Qed.

Example C20_example :
  Forall plain_event ex_wait ∧
  let r := demo_update (demo_after ex_wait) "a" 42 None in
  let es' := EvTick :: demo_polls 0 (demo_ok 0) in
  Forall (λ e, ¬ submits "a" e) es' ∧
  qlist "q" (sw r.1) Queued = ["b"; "a"] ∧
  map data (runs_of "a" (sys_run Debug demo_sched "q" (mem_h demo_clock) r.1 es')) = [42].
Proof.
  split; [repeat constructor|]. split; [repeat constructor; intros []|]. vm_compute; by split.
Qed.
Example C21_example :
  let s := demo_after ex_wait in
  let r := demo_update s "a" 42 (Some (set_jtype (context_new "a" 3) (ScheduledAt 5000))) in
  (data <$> stored (sw r.1) "a") = Some 42 ∧ (data <$> stored (sw r.1) "b") = Some 2 ∧
  (jtype ∘ ctx <$> stored (M := Z) (sw r.1) "a") = Some (ScheduledAt 5000) ∧
  qlist "q" (sw r.1) Queued = ["b"; "a"].
Proof. vm_compute; repeat split. Qed.

Example C24_example :
  Forall plain_event ex_done ∧ status_of (demo_after ex_done) "a" = Some Finished ∧
  qlist "q" (sw (demo_after ex_done)) Finished = ["a"] ∧
  let r := demo_step (demo_after ex_done) (EvRetry "a") in
  r.2 = RBool (Ok true) ∧ qlist "q" (sw r.1) Queued = ["a"] ∧ qlist "q" (sw r.1) Finished = [] ∧
  (demo_step r.1 (EvRetry "a")).2 = RBool (Ok false).
Proof. split; [repeat constructor|]. vm_compute; repeat split. Qed.

Definition ex_cron : job Z :=
  Job (Context_ "x" (Cron "@hourly" 1234567 3 (CronContext 1 (Some 7) (Some 99999))) Running
         (Some (Retry 2 (Some 5) (ExponentialBackoff 1499))) (-4) (Some 5) None (Some 7) None 6) (-17).
Example C35_example :
  ∃ v, enc_job ex_cron = Some v ∧
  dec_job v = Some (Job
    (Context_ "x" (Cron "@hourly" 1234000 3 (CronContext 1 (Some 7) (Some 99000))) Running
         (Some (Retry 2 (Some 5) (ExponentialBackoff 1000))) (-4) (Some 5) None (Some 7) None 6) (-17)).
Proof. eexists. vm_compute; by split. Qed.

(** A payload type whose value 0 does not serialize: nothing ever runs. *)
Definition partial_serde : Serde Z := {| ser z := if z =? 0 then None else Some (JNum z); de := dec_num |}.
(** A type like f64: the value 0 (as NaN) is written as null, which is not read back. *)
Definition lossy_serde : Serde Z := {| ser z := Some (if z =? 0 then JNull else JNum z); de := dec_num |}.
Example C51_unreadable_cases :
  unreadable (SM := partial_serde) 0 ∧ unreadable (SM := lossy_serde) 0 ∧ ser (Serde := lossy_serde) 0 = Some JNull ∧
  ¬ unreadable (SM := partial_serde) 1 ∧ ¬ unreadable (SM := lossy_serde) 1.
Proof. by vm_compute. Qed.
Example C51_example :
  let s := after (SM := partial_serde) Debug demo_sched "q" demo_clock [EvStart; EvEnqueue (dj "a" 0) new_re_run] in
  let s' := sys_run (SM := partial_serde) Debug demo_sched "q" (mem_h demo_clock) s [EvTick; EvTick; EvTick] in
  alive s' = true ∧ tasks s' = [] ∧ qlist "q" (sw s') Queued = ["a"].
Proof. vm_compute; repeat split. Qed.

Example C54_example :
  stored (M := Z) (sw (demo_after ex_done)) "zz" = None ∧
  (demo_step (demo_after ex_done) (EvGet "a")).2 = RJob (stored (sw (demo_after ex_done)) "a") ∧
  (data <$> stored (sw (demo_after ex_done)) "a") = Some 5.
Proof. vm_compute; repeat split. Qed.

Print Assumptions C06_new_job_queued_once.
Print Assumptions C08_done_job_requeued.
Print Assumptions C08_exactly_one_pending.
Print Assumptions C08_skip_if_finished.
Print Assumptions C18_canceled_job_does_not_run.
Print Assumptions C19_cancel_partial.
Print Assumptions C20_update_queued.
Print Assumptions C21_C22_C23_update_partial.
Print Assumptions C24_retry_done.
Print Assumptions C24_retry_not_done.
Print Assumptions C24_retry_pending_once.
Print Assumptions C35_round_trip.
Print Assumptions C35_round_trip_exact.
Print Assumptions C54_get_is_pure.
Print Assumptions C54_unknown_id.
Print Assumptions C19_cancel_refuted.
Print Assumptions C21_update_running_refuted.
Print Assumptions C22_update_done_refuted.
Print Assumptions C23_update_context_refuted.
Print Assumptions C51_unserializable_refuted.
