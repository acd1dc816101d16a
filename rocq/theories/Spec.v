(** Specifications used in the statements of the theorems, independent of the code's structure. *)
From Verif Require Export Sys.

(** ** Double-ended queues and last-write storage (C01, C02) *)

Definition upd {A} (f : string → A) (k : string) (v : A) : string → A :=
  λ k', if String.eqb k' k then v else f k'.

(** A map from queue name to list, front first; a two-level map of values. *)
Record dworld := DWorld {
  dq : string → list string;
  ds : string → string → option value;
  dreads : nat;
  dlog : list msg;
}.
Definition dworld_empty : dworld := DWorld (λ _, []) (λ _ _, None) 0 [].

(** The list as seen from an end: its first element is the one at that end. *)
Definition from_end (d : direction) (l : list string) : list string :=
  match d with Front => l | Back => rev l end.
(** Put items one after the other at an end. *)
Definition put_end (d : direction) (l items : list string) : list string :=
  match d with Front => rev items ++ l | Back => l ++ items end.

Definition deque_h (clock : nat → time) : handler dworld := λ X e,
  match e in eff X return dworld → dworld * X with
  | QPush q x => λ w, (DWorld (upd (dq w) q (x :: dq w q)) (ds w) (dreads w) (dlog w), Ok tt)
  | QMove f t n fd td => λ w,
      let items := take n (from_end fd (dq w f)) in
      let rest := from_end fd (drop n (from_end fd (dq w f))) in
      let m := upd (dq w) f rest in
      (DWorld (upd m t (put_end td (m t) items)) (ds w) (dreads w) (dlog w), Ok items)
  | QRemove q x => λ w,
      (DWorld (upd (dq w) q (filter (λ y, y ≠ x) (dq w q))) (ds w) (dreads w) (dlog w), Ok tt)
  | QGet q n d => λ w, (w, Ok (take n (from_end d (dq w q))))
  | QCount q => λ w, (w, Ok (length (dq w q)))
  | SUpsert h k v => λ w,
      (DWorld (dq w) (upd (ds w) h (upd (ds w h) k (Some v))) (dreads w) (dlog w), Ok tt)
  | SGet h k => λ w, (w, Ok (ds w h k))
  | Now => λ w, (DWorld (dq w) (ds w) (S (dreads w)) (dlog w), clock (dreads w))
  | Send m => λ w, (DWorld (dq w) (ds w) (dreads w) (dlog w ++ [m]), tt)
  end.

(** A history of calls, and the state after it. *)
Definition calls := list (sigT eff).
Fixpoint run_calls {W} (h : handler W) (cs : calls) (w : W) : W :=
  match cs with
  | [] => w
  | existT X e :: cs' => run_calls h cs' (fst (h X e w))
  end.

(** The answers of the calls of a history, each with its type. *)
Fixpoint answers {W} (h : handler W) (cs : calls) (w : W) : list {X : Set & X} :=
  match cs with
  | [] => []
  | existT X e :: cs' => existT X (snd (h X e w)) :: answers h cs' (fst (h X e w))
  end.

(** The value written by the last storage_upsert(hash, key, _) of a history. *)
Fixpoint last_write (hash key : string) (cs : calls) : option value :=
  match cs with
  | [] => None
  | c :: cs' =>
      match last_write hash key cs' with
      | Some v => Some v
      | None =>
          match c with
          | existT _ (SUpsert h k v) => if String.eqb h hash && String.eqb k key then Some v else None
          | _ => None
          end
      end
  end.

(** All items of all queues. *)
Definition all_items (s : store) : list string := concat (map snd (map_to_list (queues s))).

(** ** Calls on which Redis and InMemory agree (C04) *)

(** Counts of at least one for queue_get; at most one item per move within the same list; list keys
    and hash keys kept apart ([lk]: which keys are used for lists). *)
Definition portable_call (lk : string → Prop) {X : Set} (e : eff X) : Prop :=
  match e with
  | QPush q _ => lk q
  | QMove f t n _ _ => lk f ∧ lk t ∧ (f ≠ t ∨ n <= 1)%nat
  | QRemove q _ => lk q
  | QGet q n _ => lk q ∧ (1 <= n)%nat
  | QCount q => lk q
  | SUpsert h _ _ => ¬ lk h
  | SGet h _ => ¬ lk h
  | Now => True
  | Send _ => True
  end.
Fixpoint portable {A} (lk : string → Prop) (p : prog A) : Prop :=
  match p with
  | Eff e k => portable_call lk e ∧ ∀ x, portable lk (k x)
  | _ => True
  end.

(** The answers a client gets during a history of events. *)
Fixpoint responses {M} `{SM : Serde M} (prof : profile) (sched : string → option (time → option time))
    (name : string) {W} (h : handler W) (s : sys W M) (es : list (event M)) : list (response M) :=
  match es with
  | [] => []
  | e :: es' =>
      (sys_step prof sched name h s e).2
      :: responses prof sched name h (sys_step prof sched name h s e).1 es'
  end.

(** A payload that does not serialize, or whose JSON is not read back. *)
Definition unreadable {M} `{SM : Serde M} (d : M) : Prop := (ser d ≫= de) = None.

(** ** What a client of a queue on the InMemory backend sees *)

Section obs.
  Context {M : Type} `{SM : Serde M}.

  (** The list of job ids kept for a status, front first. *)
  Definition qlist (name : string) (w : world) (s : status) : list string :=
    default [] (queues (st w) !! format_queue_name name s).
  (** The job stored under an id, as get_job reports it. *)
  Definition stored (w : world) (id : string) : option (job M) :=
    match mem_sget (st w) STORAGE_HASH id with Some (Some js) => dec_job js | _ => None end.
End obs.

(** ** Histories *)

Section hist.
  Context {M : Type} `{SM : Serde M}.
  Context (prof : profile).
  Context (sched : string → option (time → option time)).
  Context (name : string).
  Context (clock : nat → time).
  Notation step := (sys_step prof sched name (mem_h clock)).

  (** An event of an orderly history: what is submitted is a job in status Queued, as Job::new makes
      it, or a job carrying the status that is stored at this moment (an update of a job that was
      just read, as update_job does when no other event comes in between its two messages); and
      the process does not die in the middle of a handler. *)
  Definition ok_event (s : sys world M) (e : event M) : Prop :=
    match e with
    | EvEnqueue j _ =>
        jstatus (ctx j) = Queued ∨
        ∃ ex : job M, stored (sw s) (jid j) = Some ex ∧ jstatus (ctx ex) = jstatus (ctx j)
    | EvCrashIn _ _ => False
    | _ => True
    end.
  Fixpoint ok_hist (s : sys world M) (es : list (event M)) : Prop :=
    match es with
    | [] => True
    | e :: es' => ok_event s e ∧ ok_hist (step s e).1 es'
    end.

  (** The same, without looking at the state. *)
  Definition plain_event (e : event M) : Prop :=
    match e with
    | EvEnqueue j _ => jstatus (ctx j) = Queued
    | EvCrashIn _ _ => False
    | _ => True
    end.

  (** The executions of user code for an id, and the tasks of an id. *)
  Definition runs_of {W} (id : string) (s : sys W M) : list (job M) :=
    filter (λ j, jid j = id) (runs s).
  Definition tid (t : task M) : string := jid (t_orig t).
  Definition tasks_of {W} (id : string) (s : sys W M) : list (task M) :=
    filter (λ t, tid t = id) (tasks s).

  Definition initial : sys world M := sys_init world_empty.
  (** The state after a history that starts with nothing stored and no process running. *)
  Definition after (es : list (event M)) : sys world M :=
    sys_run prof sched name (mem_h clock) initial es.
End hist.

(** ** Reading a job back (C35) *)

(** [t'] is [t] cut to whole microseconds; [d'] is [d] rounded to whole microseconds. *)
Definition cut_us (t t' : time) : Prop := (1000 | t') ∧ t' <= t < t' + 1000.
Definition near_us (d d' : duration) : Prop := (1000 | d') ∧ Z.abs (d' - d) <= 500.
Definition cut_us_opt (o o' : option time) : Prop :=
  match o, o' with None, None => True | Some t, Some t' => cut_us t t' | _, _ => False end.

Inductive type_read : job_type → job_type → Prop :=
  | tr_normal : type_read Normal Normal
  | tr_scheduled t t' : cut_us t t' → type_read (ScheduledAt t) (ScheduledAt t')
  | tr_cron e n n' r k m o o' :
      cut_us n n' → cut_us_opt o o' →
      type_read (Cron e n r (CronContext k m o)) (Cron e n' r (CronContext k m o')).
Inductive retry_read : option retry → option retry → Prop :=
  | rr_none : retry_read None None
  | rr_interval n m d d' :
      near_us d d' → retry_read (Some (Retry n m (Interval d))) (Some (Retry n m (Interval d')))
  | rr_backoff n m d d' :
      near_us d d' →
      retry_read (Some (Retry n m (ExponentialBackoff d)))
                 (Some (Retry n m (ExponentialBackoff d'))).
(** [j'] is what storage gives back for [j]. *)
Definition read_back {M} (j j' : job M) : Prop :=
  data j' = data j ∧
  let c := ctx j in let c' := ctx j' in
  job_id c' = job_id c ∧ type_read (jtype c) (jtype c') ∧ jstatus c' = jstatus c ∧
  retry_read (jretry c) (jretry c') ∧ created_at c' = created_at c ∧
  enqueue_at c' = enqueue_at c ∧ run_at c' = run_at c ∧ complete_at c' = complete_at c ∧
  cancel_at c' = cancel_at c ∧ run_count c' = run_count c.

(** ** Observations for the API and life cycle properties *)

Definition done_status (s : status) : Prop := s = Finished ∨ s = Failed ∨ s = Canceled.

Section api.
  Context {M : Type} `{SM : Serde M}.
  Context (name : string).

  Definition status_of (s : sys world M) (id : string) : option status :=
    jstatus ∘ ctx <$> stored (sw s) id.

  (** How often an id is in the list of a status. *)
  Definition times_in (s : sys world M) (st : status) (id : string) : nat :=
    length (filter (λ x, x = id) (qlist name (sw s) st)).

  (** Between [s] and [s'] nothing changed for other ids: their stored jobs, their order in every
      list, the tasks, the executions, the configuration. *)
  Definition only_id (id : string) (s s' : sys world M) : Prop :=
    (∀ k, k ≠ id → stored (sw s') k = stored (sw s) k) ∧
    (∀ st, filter (λ x, x ≠ id) (qlist name (sw s') st) =
           filter (λ x, x ≠ id) (qlist name (sw s) st)) ∧
    tasks s' = tasks s ∧ runs s' = runs s ∧ cfg s' = cfg s ∧ alive s' = alive s.

  (** Events that submit an id (run, run_with_config, the second half of update_job). *)
  Definition submits (id : string) (e : event M) : Prop :=
    match e with EvEnqueue j _ => jid j = id | _ => False end.
  (** Events that submit or retry an id. *)
  Definition revives (id : string) (e : event M) : Prop :=
    match e with EvEnqueue j _ => jid j = id | EvRetry k => k = id | _ => False end.

  (** Submissions that may overwrite a job without queueing it (new_skip_if_finished). *)
  Definition overwrites_only (e : event M) : Prop :=
    match e with EvEnqueue _ c => re_run c = false ∧ override_data c = true | _ => False end.

  (** The allowed changes of the status of an id ([None]: not stored). *)
  Definition legal (o o' : option status) : Prop :=
    match o, o' with
    | None, Some Queued => True
    | Some Queued, Some Running => True
    | Some Queued, Some Canceled => True
    | Some Running, Some Queued => True
    | Some Running, Some Finished => True
    | Some Running, Some Failed => True
    | Some Finished, Some Queued => True
    | Some Failed, Some Queued => True
    | Some Canceled, Some Queued => True
    | _, _ => False
    end.

  (** The largest limit in force during a history: 20 from a start on, then as configured. *)
  Fixpoint limit_of (es : list (event M)) : nat :=
    match es with
    | [] => 0
    | EvStart :: es' => Nat.max 20 (limit_of es')
    | EvConfig c :: es' => Nat.max (max_processing_jobs c) (limit_of es')
    | _ :: es' => limit_of es'
    end.
End api.

(** ** Picking *)

(** A job may be started at a clock reading. *)
Definition due {M} (j : job M) (now : time) : Prop :=
  match jtype (ctx j) with
  | Normal => True
  | ScheduledAt t => t < now
  | Cron _ slot n cc =>
      slot <= now ∧ (∀ m, max_repeat cc = Some m → n <= m) ∧ (∀ e, end_at cc = Some e → now <= e)
  end.

Section pick_spec.
  Context {M : Type} `{SM : Serde M}.
  Context (prof : profile).
  Context (sched : string → option (time → option time)).
  Context (name : string).
  Context (clock : nat → time).
  Notation step := (sys_step prof sched name (mem_h clock)).

  (** The number of slots that are free for a tick. *)
  Definition free_slots (s : sys world M) : nat :=
    if alive s then (max_processing_jobs (cfg s) - length (qlist name (sw s) Running))%nat else 0%nat.

  (** How many ticks of a history find a free slot. *)
  Fixpoint free_ticks (s : sys world M) (es : list (event M)) : nat :=
    match es with
    | [] => 0
    | e :: es' =>
        (match e with EvTick => Nat.min 1 (free_slots s) | _ => 0 end + free_ticks (step s e).1 es')%nat
    end.
  (** How many ids a history adds to the waiting list. *)
  Fixpoint arrivals (s : sys world M) (es : list (event M)) : nat :=
    match es with
    | [] => 0
    | e :: es' =>
        (length (qlist name (sw (step s e).1) Queued) - length (qlist name (sw s) Queued)
         + arrivals (step s e).1 es')%nat
    end.
End pick_spec.

(** ** Executions and the clock *)

Section time_spec.
  Context {M : Type}.

  (** The executions of an id started between two states. *)
  Definition new_runs {W} (id : string) (s s' : sys W M) : list (job M) :=
    drop (length (runs_of id s)) (runs_of id s').

  (** The execution [r] was picked at the clock reading number [k], between the readings [k0] and
      [k1]: it was due then, and its run_at is the next reading. *)
  Definition picked_at (clock : nat → time) (k0 k1 : nat) (r : job M) (k : nat) : Prop :=
    (k0 <= k)%nat ∧ (S k < k1)%nat ∧ due r (clock k) ∧ run_at (ctx r) = Some (ms_of (clock (S k))).

  (** The submission of [j] in the state [s] queues it: its id is new, or done and to be re-run. *)
  Definition queues_it `{SM : Serde M} (s : sys world M) (j : job M) (c : enqueue_config) : Prop :=
    alive s = true ∧
    (stored (M := M) (sw s) (jid j) = None ∨
     ∃ ex : job M, stored (sw s) (jid j) = Some ex ∧ done_status (jstatus (ctx ex)) ∧ re_run c = true).

  (** Cron jobs, and the time of the schedule's event a cron job waits or runs for. *)
  Definition is_cron (j : job M) : Prop :=
    match jtype (ctx j) with Cron _ _ _ _ => True | _ => False end.
  Definition slot_of (j : job M) : time :=
    match jtype (ctx j) with Cron _ slot _ _ => slot | _ => 0 end.

  (** Payload types that do not define their own retry_at (executable.rs:30-42 has the default). *)
  Definition default_retry (e : event M) : Prop :=
    match e with EvTask _ u => ∃ b, ur_retry u = DefaultRetryAt b | _ => True end.
  (** Every execution fails, as reported to both calls of is_failed_output. *)
  Definition all_fail (e : event M) : Prop :=
    match e with EvTask _ u => ur_retry u = DefaultRetryAt true ∧ ur_failed u = true | _ => True end.
End time_spec.

(** ** Crashes and backend faults *)

Section fault_spec.
  Context {M : Type} `{SM : Serde M}.

  (** A history with a backend whose n-th call is subject to [faults n]. *)
  Definition fafter (prof : profile) (sched : string → option (time → option time)) (name : string)
      (clock : nat → time) (faults : nat → fault) (es : list (event M)) : sys fworld M :=
    sys_run prof sched name (faulty_h clock faults) (sys_init (FWorld world_empty 0)) es.

  (** Events that cancel an id, completely or in part. *)
  Fixpoint cancels (id : string) (e : event M) : Prop :=
    match e with
    | EvCancel k => k = id
    | EvCrashIn e' _ => cancels id e'
    | _ => False
    end.

  (** Events of a queue that goes on living. *)
  Definition calm (e : event M) : Prop :=
    match e with EvStart | EvPanic | EvCrash | EvCrashIn _ _ => False | _ => True end.
  (** Everything but a new start. *)
  Definition no_start (e : event M) : Prop :=
    match e with EvStart | EvCrashIn EvStart _ => False | _ => True end.
  (** The limit is not set above L. *)
  Definition below (L : nat) (e : event M) : Prop :=
    match e with EvConfig c => (max_processing_jobs c <= L)%nat | _ => True end.
End fault_spec.
