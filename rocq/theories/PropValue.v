(** Stored jobs and executions, whatever backend calls fail and wherever the process dies. *)
From Verif Require Import Spec SpecValue ValueProps Demo.

Section theorems.
  Context {M : Type} `{SM : Serde M} {SO : SerdeOk M}.
  Context (prof : profile).
  Context (sched : string → option (time → option time)).
  Context (name : string).
  Context (clock : nat → time).
  (** Any backend call may fail, before or after its effect; [es] may contain crashes between and inside
      steps, panics and restarts. *)
  Context (faults : nat → fault).
  Notation fafter := (fafter prof sched name clock faults).
  Notation along := (along prof sched name clock faults).
  Implicit Types es : list (event M).

  (** C56: payloads do not leak between ids. *)
  Theorem C56_payload (P : string → M → Prop) es :
    along (payload_event P) (sys_init (FWorld world_empty 0)) es →
    let s := fafter es in
    (∀ id (j : job M), stored (fw (sw s)) id = Some j → jid j = id ∧ P id (data j)) ∧
    (∀ j, j ∈ runs s → P (jid j) (data j)).
  Proof. exact (payload prof sched name clock faults P es). Qed.

  (** C51: while all submissions of an id have unreadable payloads, it is never executed and never found,
      whatever else happens. *)
  Theorem C51_never_runs es id :
    Forall (λ e, match core e with EvEnqueue j _ => jid j = id → unreadable (data j) | _ => True end) es →
    let s := fafter es in
    stored (M := M) (fw (sw s)) id = None ∧ (∀ j, j ∈ runs s → jid j ≠ id).
  Proof. exact (never_runs prof sched name clock faults id es). Qed.

  (** C57: what is stored or executed is a state of a submitted job. *)
  Theorem C57_origin es :
    Forall (λ e, default_retry (core e)) es →
    let s := fafter es in
    (∀ id (j : job M), stored (fw (sw s)) id = Some j →
       jid j = id ∧ ∃ j0, submitted_in es j0 ∧ derived j0 j) ∧
    (∀ j, j ∈ runs s → ∃ j0, submitted_in es j0 ∧ derived j0 j).
  Proof. exact (origin prof sched name clock faults es). Qed.

  (** C58: retry limits and start times hold in spite of faults. *)
  Theorem C58_retry_limit es :
    Forall (λ e, default_retry (core e) ∧
                 match core e with EvEnqueue j _ => in_limit j | _ => True end) es →
    let s := fafter es in
    (∀ id (j : job M), stored (fw (sw s)) id = Some j → in_limit j) ∧
    (∀ j, j ∈ runs s → in_limit j).
  Proof. exact (limits prof sched name clock faults es). Qed.
  Theorem C58_due es :
    let s := fafter es in
    ∀ j, j ∈ runs s →
      jstatus (ctx j) = Running ∧ ∃ k, picked_at clock 0 (reads (fw (sw s))) j k.
  Proof. exact (due_runs prof sched name clock faults es). Qed.

  (** C59: time stamps, for a clock that does not go backwards. *)
  Theorem C59_stamps es :
    (∀ k k', (k <= k')%nat → clock k <= clock k') →
    along (stamped_event clock) (sys_init (FWorld world_empty 0)) es →
    let s := fafter es in
    let now := ms_of (clock (reads (fw (sw s)))) in
    (∀ id (j : job M), stored (fw (sw s)) id = Some j → stamps now j) ∧
    (∀ j, j ∈ runs s → stamps now j).
  Proof. intros H. exact (stamps_hold prof sched name clock faults H es). Qed.
End theorems.

(** ** Concrete cases *)

(** Every thirteenth backend call fails after its effect, every 29th before. *)
Definition pv_faults (n : nat) : fault :=
  if (n mod 13 =? 12)%nat then FAfter else if (n mod 29 =? 28)%nat then FBefore else FOk.
Definition pv_run := fafter (M := Z) Debug demo_sched "q" demo_clock pv_faults.
Definition pv_job (id : string) (d : Z) : job Z :=
  job_set_retry (demo_job id d) (Retry 0 (Some 2) (Interval 3000300)).
Definition pv_es : list (event Z) :=
  [EvStart; EvEnqueue (pv_job "a" 1) new_re_run; EvEnqueue (pv_job "b" 10) new_re_run; EvTick] ++
  demo_polls 0 (demo_fail 12) ++
  [EvCrashIn EvTick 3; EvStart; EvEnqueue (pv_job "c" 1) new_re_run; EvTick; EvTick] ++
  demo_polls 0 (demo_fail 3) ++ [EvTick; EvTick] ++ demo_polls 0 (demo_ok 14).
Definition pv_P (id : string) (d : Z) : Prop := if String.eqb id "b" then 10 <= d else d < 10.

Lemma pv_along : along Debug demo_sched "q" demo_clock pv_faults (payload_event pv_P)
  (sys_init (FWorld world_empty 0)) pv_es.
Proof. vm_compute. repeat split; try discriminate; by intros t [= <-]. Qed.
(** The run of "b" below is repeated after a failure; the step that dies and the failing calls leave
    "c" without a record. *)
Example C56_example :
  let s := pv_run pv_es in
  along Debug demo_sched "q" demo_clock pv_faults (payload_event pv_P) (sys_init (FWorld world_empty 0)) pv_es ∧
  map (λ j, (jid j, data j)) (runs s) = [("b", 10); ("a", 1); ("b", 12)] ∧
  map (λ k, data <$> stored (M := Z) (fw (sw s)) k) ["a"; "b"; "c"] = [Some 3; Some 14; None].
Proof. split; [exact pv_along|]. vm_compute. repeat split. Qed.
Example C57_example :
  let s := pv_run pv_es in
  Forall (λ e, default_retry (core e)) pv_es ∧
  map (λ k, (λ j, (jtype (ctx j), jretry (ctx j))) <$> stored (M := Z) (fw (sw s)) k) ["a"] =
    [Some (ScheduledAt 14000000, Some (Retry 1 (Some 2) (Interval 3000000)))] ∧
  submitted_in pv_es (pv_job "a" 1).
Proof.
  split; [repeat constructor; by eexists|]. split; [by vm_compute|].
  exists (EvEnqueue (pv_job "a" 1) new_re_run), new_re_run. split; [|done]. do 1 right. left.
Qed.
Example C58_example :
  let s := pv_run pv_es in
  Forall (λ e, default_retry (core e) ∧
               match core e with EvEnqueue j _ => in_limit j | _ => True end) pv_es ∧
  map (λ j, (retried_times <$> jretry (ctx j), run_at (ctx j))) (runs s) =
    [(Some 0, Some 3); (Some 0, Some 8); (Some 1, Some 10)].
Proof.
  split; [|by vm_compute].
  assert (∀ id d, in_limit (pv_job id d)) as Hl.
  { intros id d r [= <-]. split; [done|]. by intros m [= <-]. }
  unfold pv_es. cbn [app demo_polls].
  repeat (apply List.Forall_cons; [split; [try done; by eexists|try done; apply Hl]|]). constructor.
Qed.
Example C59_example :
  let s := pv_run pv_es in
  (∀ k k', (k <= k')%nat → demo_clock k <= demo_clock k') ∧
  along Debug demo_sched "q" demo_clock pv_faults (stamped_event demo_clock)
    (sys_init (FWorld world_empty 0)) pv_es ∧
  map (λ k, (λ j, (enqueue_at (ctx j), run_at (ctx j), complete_at (ctx j))) <$>
    stored (M := Z) (fw (sw s)) k) ["b"] = [Some (Some 5, Some 10, Some 15)].
Proof.
  split; [intros; unfold demo_clock; lia|]. split; [|by vm_compute].
  vm_compute. repeat split; by intros.
Qed.

(** The value 0 is written as null (as NaN is), which is not read back: "a" waits, twice after a second
    submission, and is not executed; "b" is. *)
Definition nan_serde : Serde Z := {| ser z := Some (if z =? 0 then JNull else JNum z); de := dec_num |}.
Example C51_example_never :
  let es := [EvStart; EvEnqueue (demo_job "a" 0) new_re_run; EvEnqueue (demo_job "b" 1) new_re_run; EvTick] ++
            demo_polls 0 (demo_ok 2) ++ [EvEnqueue (demo_job "a" 0) new_re_run; EvTick; EvTick] in
  let s := fafter (SM := nan_serde) Debug demo_sched "q" demo_clock (λ _, FOk) es in
  Forall (λ e, match core e with EvEnqueue j _ => jid j = "a" → unreadable (SM := nan_serde) (data j) | _ => True end) es ∧
  qlist "q" (fw (sw s)) Queued = ["a"; "a"] ∧ map jid (runs s) = ["b"].
Proof. cbv zeta. split; [|by vm_compute]. repeat (apply List.Forall_cons; [done|]). constructor. Qed.

Print Assumptions C51_never_runs.
Print Assumptions C56_payload.
Print Assumptions C57_origin.
Print Assumptions C58_retry_limit.
Print Assumptions C58_due.
Print Assumptions C59_stamps.
