(** A queue on a Redis server that holds any other keys, and any content under its own. *)
From Verif Require Export SpecRedisLive SpecAny SpecBack.
Open Scope Z_scope.

Section keys.
  Context {M : Type} `{SM : Serde M}.
  Context (prof : profile).
  Context (sched : string → option (time → option time)).
  Context (name : string).
  Context (clock : nat → time).
  Notation go := (sys_run prof sched name (redis_h clock)).

  (** The keys of a queue: the five lists, and the hash that all queues share. *)
  Definition own_key (k : string) : Prop := k = STORAGE_HASH ∨ ∃ s, k = format_queue_name name s.
  (** They hold what commands on them expect. *)
  Definition typed (w : rworld) : Prop :=
    (∀ s m, keys w !! format_queue_name name s ≠ Some (RHash m)) ∧ (∀ l, keys w !! STORAGE_HASH ≠ Some (RList l)).
  (** A key that every pick needs holds something else: the waiting list, the list of picked jobs or the records. *)
  Definition jammed (w : rworld) : Prop :=
    (∃ m, keys w !! format_queue_name name Queued = Some (RHash m)) ∨
    (∃ m, keys w !! format_queue_name name Running = Some (RHash m)) ∨
    (∃ l, keys w !! STORAGE_HASH = Some (RList l)).
  (** The same under the keys of the queue, and the same clock readings and messages. *)
  Definition same_own (w w' : rworld) : Prop :=
    (∀ k, own_key k → keys w !! k = keys w' !! k) ∧ rreads w = rreads w' ∧ rlog w = rlog w'.
  (** Other programs change the keyspace before every call of the backend; the number counts the calls. *)
  Definition noisy_h (noise : nat → keyspace → keyspace) : handler (rworld * nat) := λ X e w,
    let '(r, x) := redis_h clock X e (RWorld (noise w.2 (keys w.1)) (rreads w.1) (rlog w.1)) in ((r, S w.2), x).
  (** They leave the keys of the queue alone. *)
  Definition polite (noise : nat → keyspace → keyspace) : Prop := ∀ n ks k, own_key k → noise n ks !! k = ks !! k.
  (** The same process. *)
  Definition same_process {W W'} (s : sys W M) (s' : sys W' M) : Prop :=
    cfg s = cfg s' ∧ tasks s = tasks s' ∧ alive s = alive s' ∧ runs s = runs s'.

  (** As [sound], [in_limbo], [a_moment] and so on of SpecAny.v and SpecBack.v. *)
  Definition k_sound (s : sys rworld M) : Prop :=
    alive s = true ∧ typed (sw s) ∧ (∀ id j, r_record (M := M) (sw s) id = Some j → jid j = id) ∧
    ∀ t, t ∈ tasks s → sound_task t.
  Definition k_status (s : sys rworld M) (id : string) : option status :=
    jstatus ∘ ctx <$> r_record (M := M) (sw s) id.
  Definition k_limbo (s : sys rworld M) (id : string) : Prop :=
    k_status s id = Some Running ∧ id ∉ r_list name (sw s) Queued ∧ id ∉ map tid (tasks s).
  Definition k_moment (s0 : sys rworld M) (ev : nat → event M) (n : nat) : sys rworld M := go s0 (map ev (seq 0 n)).
  Definition k_lost (s : sys rworld M) : list string :=
    filter (λ id, id ∉ map tid (tasks s)) (r_list name (sw s) Running).
  Definition k_healthy (s0 : sys rworld M) (ev : nat → event M) : Prop :=
    ∀ n, calm (ev n) ∧ alive (k_moment s0 ev n) = true ∧
      (length (k_lost s0) < max_processing_jobs (cfg (k_moment s0 ev n)))%nat ∧
      Z.of_nat (length (r_list name (sw (k_moment s0 ev n)) Queued)) <= i32_max.
  Definition k_polling (s0 : sys rworld M) (ev : nat → event M) : Prop :=
    ∀ n t, t ∈ tasks (k_moment s0 ev n) →
      ∃ m i u, (n <= m)%nat ∧ ev m = EvTask i u ∧ tasks (k_moment s0 ev m) !! i = Some t.
  (** How many ids the first [d] steps from [n0] on add to the waiting list. *)
  Definition k_added (s0 : sys rworld M) (ev : nat → event M) (n0 d : nat) : nat :=
    sum_list_with (λ n, length (r_list name (sw (k_moment s0 ev (S n))) Queued) - length (r_list name (sw (k_moment s0 ev n)) Queued))%nat
      (seq n0 d).
End keys.
