(** Endless executions of a queue that several processes work on. *)
From Verif Require Export SpecFleetLive.

Section spec.
  Context {M : Type} `{SM : Serde M}.
  Context (prof : nat → profile).
  Context (sched : nat → string → option (time → option time)).
  Context (name : string).
  Context (clock : nat → nat → time).

  (** The fleet of [N] processes after the first [n] of endlessly many events. *)
  Definition f_moment (N : nat) (ev : nat → nat * event M) (n : nat) : fleet M :=
    fleet_after prof sched name clock N (map ev (seq 0 n)).
  Definition lives (f : fleet M) (i : nat) : Prop := ∃ m, f_members f !! i = Some m ∧ m_alive m = true.
  (** Ids in the processing list that no process has a task for. *)
  Definition lost (f : fleet M) : list string :=
    filter (λ id, id ∉ map tid (all_tasks f)) (qlist name (f_world f) Running).

  (** Submitted jobs are well formed; from [n0] on no process dies, a process that starts lives, and each
      living process has a limit above the number of ids that were lost before. *)
  Definition f_healthy (N : nat) (ev : nat → nat * event M) (n0 : nat) : Prop :=
    (∀ n, ok_fleet prof sched name clock (fleet_init N) (map ev (seq 0 n))) ∧
    (∀ n i, (n0 <= n)%nat → lives (f_moment N ev n) i ∨ ev n = (i, EvStart) ∧ (i < N)%nat → lives (f_moment N ev (S n)) i) ∧
    (∀ n i m, (n0 <= n)%nat → f_members (f_moment N ev n) !! i = Some m → m_alive m = true →
       (length (lost (f_moment N ev n0)) < max_processing_jobs (m_cfg m))%nat).
  (** Again and again the timer of some living process fires. *)
  Definition f_ticking (N : nat) (ev : nat → nat * event M) : Prop :=
    ∀ n, ∃ k i, (n <= k)%nat ∧ ev k = (i, EvTick) ∧ lives (f_moment N ev k) i.
  (** Every task is polled again, by its own process. *)
  Definition f_polling (N : nat) (ev : nat → nat * event M) (n0 : nat) : Prop :=
    ∀ n i m t, (n0 <= n)%nat → f_members (f_moment N ev n) !! i = Some m → t ∈ m_tasks m →
      ∃ k x u m' t', (n <= k)%nat ∧ ev k = (i, EvTask x u) ∧ f_members (f_moment N ev k) !! i = Some m' ∧
        m_tasks m' !! x = Some t' ∧ tid t' = tid t.
End spec.
