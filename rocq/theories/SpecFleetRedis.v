(** Endless executions of several processes on one Redis. *)
From Verif Require Export WorkersRedis SpecRedisLive SpecFleetRest.
Open Scope Z_scope.

Section spec.
  Context {M : Type} `{SM : Serde M}.
  Context (prof : nat → profile).
  Context (sched : nat → string → option (time → option time)).
  Context (name : string).
  Context (clock : nat → nat → time).
  Notation r_list := (r_list name).
  Notation r_record := (@r_record M SM).

  Definition rf_after (N : nat) (es : list (nat * event M)) : rfleet M := rfleet_run prof sched name clock (rfleet_init N) es.
  (** The fleet of [N] processes after the first [n] of endlessly many events, from an empty keyspace. *)
  Definition rf_moment (N : nat) (ev : nat → nat * event M) (n : nat) : rfleet M := rf_after N (map ev (seq 0 n)).

  Definition rf_tasks (f : rfleet M) : list (task M) := concat (map m_tasks (rf_members f)).
  Definition rf_runs_of (id : string) (f : rfleet M) : list (job M) := filter (λ j, jid j = id) (rf_runs f).
  Definition rf_lives (f : rfleet M) (i : nat) : Prop := ∃ m, rf_members f !! i = Some m ∧ m_alive m = true.
  (** Ids in the processing list that no process has a task for. *)
  Definition rf_lost (f : rfleet M) : list string := filter (λ id, id ∉ map tid (rf_tasks f)) (r_list (rf_world f) Running).
  (** The ids that wait or that some process has a task for, and how often they can still be executed. *)
  Definition rf_to_do (f : rfleet M) : list string := r_list (rf_world f) Queued ++ map tid (rf_tasks f).
  Definition rf_work_left (f : rfleet M) : nat :=
    sum_list_with (λ id, match r_record (rf_world f) id with Some j => S (tries_left j) | None => O end) (rf_to_do f).

  (** A submitted job is new, or has the status its record has; no process dies in the middle of a step. *)
  Definition rf_ok_event (w : rworld) (e : event M) : Prop :=
    match e with
    | EvEnqueue j _ => jstatus (ctx j) = Queued ∨ ∃ ex, r_record w (jid j) = Some ex ∧ jstatus (ctx ex) = jstatus (ctx j)
    | EvCrashIn _ _ => False
    | _ => True
    end.
  (** That holds of every event of a history. *)
  Definition rf_ok (N : nat) (es : list (nat * event M)) : Prop :=
    ∀ k ie, es !! k = Some ie → rf_ok_event (rf_world (rf_after N (take k es))) ie.2.
  (** That holds always; from [n0] on no process dies, a process that starts lives, and each living process
      has a limit above the number of ids that were lost before. *)
  Definition rf_healthy (N : nat) (ev : nat → nat * event M) (n0 : nat) : Prop :=
    (∀ n, rf_ok_event (rf_world (rf_moment N ev n)) (ev n).2) ∧
    (∀ n i, (n0 <= n)%nat → rf_lives (rf_moment N ev n) i ∨ ev n = (i, EvStart) ∧ (i < N)%nat → rf_lives (rf_moment N ev (S n)) i) ∧
    (∀ n i m, (n0 <= n)%nat → rf_members (rf_moment N ev n) !! i = Some m → m_alive m = true →
       (length (rf_lost (rf_moment N ev n0)) < max_processing_jobs (m_cfg m))%nat).
  (** Again and again the timer of some living process fires. *)
  Definition rf_ticking (N : nat) (ev : nat → nat * event M) : Prop :=
    ∀ n, ∃ k i, (n <= k)%nat ∧ ev k = (i, EvTick) ∧ rf_lives (rf_moment N ev k) i.
  (** Every task is polled again, by its own process. *)
  Definition rf_polling (N : nat) (ev : nat → nat * event M) (n0 : nat) : Prop :=
    ∀ n i m t, (n0 <= n)%nat → rf_members (rf_moment N ev n) !! i = Some m → t ∈ m_tasks m →
      ∃ k x u m' t', (n <= k)%nat ∧ ev k = (i, EvTask x u) ∧ rf_members (rf_moment N ev k) !! i = Some m' ∧
        m_tasks m' !! x = Some t' ∧ tid t' = tid t.
End spec.
