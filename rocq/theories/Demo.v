(** A concrete payload type, clock and cron schedule for the examples (tests, not proofs). *)
From Verif Require Export Spec.

Global Instance demo_serde : Serde Z := {| ser z := Some (JNum z); de := dec_num |}.
Global Instance demo_serde_ok : SerdeOk Z.
Proof. split; [by eexists|]. by intros m j [= <-]. Qed.

(** The k-th reading of the clock is k milliseconds. *)
Definition demo_clock (k : nat) : time := Z.of_nat k * 1000000.
(** Cron: every expression but "bad" means "every second". *)
Definition demo_sched (e : string) : option (time → option time) :=
  if String.eqb e "bad" then None
  else if String.eqb e "once" then Some (λ t, if t <? 1000 then Some 1000 else None)
  else Some (λ t, Some ((t / 1000000000 + 1) * 1000000000)).
Definition demo_job (id : string) (d : Z) : job Z := job_new id 0 d.
Definition demo_step := sys_step (M := Z) Debug demo_sched "q" (mem_h demo_clock).
Definition demo_after : list (event Z) → sys world Z := after Debug demo_sched "q" demo_clock.

(** User code that succeeds, fails, leaving the payload [d]. *)
Definition demo_ok (d : Z) : user_result Z := UserResult d false (DefaultRetryAt false).
Definition demo_fail (d : Z) : user_result Z := UserResult d true (DefaultRetryAt true).
(** The four polls of a task. *)
Definition demo_polls (i : nat) (u : user_result Z) : list (event Z) :=
  [EvTask i u; EvTask i u; EvTask i u; EvTask i u].
