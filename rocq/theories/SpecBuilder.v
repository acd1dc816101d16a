(** What a chain of builder calls says about the job it makes. *)
From Verif Require Export Spec Builder.

(** The last id / retry policy given in a chain. *)
Definition id_given (b : bcall) : option string := match b with BId id => Some id | _ => None end.
Definition retry_given (b : bcall) : option retry := match b with BRetry r => Some r | _ => None end.
Definition last_given {A} (f : bcall → option A) (bs : list bcall) : option A := list.last (omap f bs).

Definition sets_type (b : bcall) : Prop :=
  match b with BType _ | BScheduleAt _ | BDelay _ | BCron _ => True | _ => False end.
Definition sets_context (b : bcall) : Prop := match b with BContext _ => True | _ => False end.

(** How often a chain reads the clock. *)
Definition readings (bs : list bcall) : nat :=
  length (omap (λ b, match b with BDelay _ | BCron _ => Some tt | _ => None end) bs).

Section spec.
  Context (sched : string → option (time → option time)).

  (** The type that a call asks for, at a reading of the clock. *)
  Inductive type_given (now : time) : bcall → job_type → Prop :=
    | tg_type t : type_given now (BType t) t
    | tg_at t : type_given now (BScheduleAt t) (ScheduledAt t)
    | tg_delay d : type_given now (BDelay d) (ScheduledAt (now + d))
    | tg_cron e f slot :
        sched e = Some f → f now = Some slot →
        type_given now (BCron e) (Cron e slot 1 cron_context_default)
    | tg_cron_over e f :
        sched e = Some f → f now = None →
        type_given now (BCron e) (Cron e now 1 cron_context_default).

  (** A call that cannot be carried out. *)
  Definition impossible (now : time) (b : bcall) : Prop :=
    match b with
    | BDelay d => ¬ (dt_min <= now + d <= dt_max)
    | BCron e => sched e = None
    | _ => False
    end.
  Definition impossible_in (clk : nat → time) (k : nat) (bs : list bcall) : Prop :=
    ∃ bs1 b bs2, bs = bs1 ++ b :: bs2 ∧ impossible (clk (k + readings bs1)%nat) b.

  (** [j] is the job with payload [d] made by the calls [bs] (without set_context) from the context
      [c0]; the first reading of the clock is number [k].  For each part the last call counts. *)
  Definition built {M} (clk : nat → time) (k : nat) (c0 : context) (d : M) (bs : list bcall) (j : job M) : Prop :=
    data j = d ∧
    let c := ctx j in
    job_id c = default (job_id c0) (last_given id_given bs) ∧
    jretry c = match last_given retry_given bs with Some r => Some r | None => jretry c0 end ∧
    jstatus c = jstatus c0 ∧ created_at c = created_at c0 ∧ enqueue_at c = enqueue_at c0 ∧
    run_at c = run_at c0 ∧ complete_at c = complete_at c0 ∧ cancel_at c = cancel_at c0 ∧
    run_count c = run_count c0 ∧
    ((Forall (λ b, ¬ sets_type b) bs ∧ jtype c = jtype c0) ∨
     ∃ bs1 b bs2, bs = bs1 ++ b :: bs2 ∧ Forall (λ b, ¬ sets_type b) bs2 ∧
       type_given (clk (k + readings bs1)%nat) b (jtype c)).
End spec.
