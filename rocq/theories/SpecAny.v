(** Endless executions that begin with any content of the storage. *)
From Verif Require Export SpecLive.

Section any.
  Context {M : Type} `{SM : Serde M}.
  Context (prof : profile).
  Context (sched : string → option (time → option time)).
  Context (name : string).
  Context (clock : nat → time).

  (** The state after the first [n] of endlessly many events, from the state [s0]. *)
  Definition a_moment (s0 : sys world M) (ev : nat → event M) (n : nat) : sys world M :=
    sys_run prof sched name (mem_h clock) s0 (map ev (seq 0 n)).

  (** All that is asked of the first state: the process lives, records carry their key as id, and the
      tasks hold picked jobs.  The lists may hold anything: repeated ids, ids without a record, ids
      that nobody executes, ids whose record says something else. *)
  Definition sound_task (t : task M) : Prop :=
    jid (t_job t) = jid (t_orig t) ∧ jstatus (ctx (t_job t)) = Running.
  Definition sound (s0 : sys world M) : Prop :=
    alive s0 = true ∧ (∀ id j, stored (M := M) (sw s0) id = Some j → jid j = id) ∧
    ∀ t, t ∈ tasks s0 → sound_task t.

  (** What a failing backend leaves behind: the storage, and the process as it is. *)
  Definition survivor (s : sys fworld M) : sys world M :=
    Sys (fw (sw s)) (cfg s) (tasks s) (alive s) (runs s).

  (** The entries of the list of picked jobs that no task answers for: they are there for ever. *)
  Definition a_lost (s : sys world M) : list string :=
    filter (λ id, id ∉ map tid (tasks s)) (qlist name (sw s) Running).

  (** The process stays alive, the limit stays above the number of lost entries, and the length of
      the waiting list is an i32. *)
  Definition a_healthy (s0 : sys world M) (ev : nat → event M) : Prop :=
    ∀ n, calm (ev n) ∧ alive (a_moment s0 ev n) = true ∧
      (length (a_lost s0) < max_processing_jobs (cfg (a_moment s0 ev n)))%nat ∧
      Z.of_nat (length (qlist name (sw (a_moment s0 ev n)) Queued)) <= i32_max.

  (** Every task is polled again, as it is. *)
  Definition a_polling (s0 : sys world M) (ev : nat → event M) : Prop :=
    ∀ n t, t ∈ tasks (a_moment s0 ev n) →
      ∃ m i u, (n <= m)%nat ∧ ev m = EvTask i u ∧ tasks (a_moment s0 ev m) !! i = Some t.

  (** An id that waits, with its record, and no task. *)
  Definition a_waits (s : sys world M) (id : string) (j : job M) : Prop :=
    id ∈ qlist name (sw s) Queued ∧ stored (M := M) (sw s) id = Some j ∧ id ∉ map tid (tasks s).
End any.
