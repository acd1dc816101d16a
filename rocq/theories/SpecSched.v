(** The work queue as a scheduler: a machine without backend, keys, JSON, clock counters or programs, that
    says for every event what the queue does.  It knows the record of every id, the waiting ids (oldest
    first), the ids that hold a slot (newest first), and the executions under way. *)
From Verif Require Import Spec.
Open Scope Z_scope.

(** An execution: taken, user code about to be called, in user code, user code has returned. *)
Inductive stage := Taken | Announced | Working | Returned.

Section sched.
  Context {M : Type}.
  Context (schedule : string → option (time → option time)).

  Record board := Board {
    up : bool;                              (* a process works on the queue *)
    limit : nat;
    records : string → option (job M);
    waiting : list string;                  (* oldest first *)
    slots : list string;                    (* who holds a slot, newest first *)
    execs : list (job M * stage);
    begun : list (job M);                   (* all calls of user code so far *)
  }.
  (** The board at the beginning. *)
  Definition fresh (b : board) : Prop :=
    up b = false ∧ limit b = 20%nat ∧ (∀ id, records b id = None) ∧ waiting b = [] ∧ slots b = [] ∧ execs b = [] ∧ begun b = [].

  (** [b'] is [b], but id [id] has record [j] as it comes out of the storage. *)
  Definition with_record (b b' : board) (id : string) (j : job M) : Prop :=
    (∃ j', records b' id = Some j' ∧ read_back j j') ∧ ∀ k, k ≠ id → records b' k = records b k.
  Definition same_records (b b' : board) : Prop := ∀ k, records b' k = records b k.
  (** The rest of the board. *)
  Definition rest_is (b' : board) (u : bool) (l : nat) (w s : list string) (x : list (job M * stage))
      (r : list (job M)) : Prop :=
    up b' = u ∧ limit b' = l ∧ waiting b' = w ∧ slots b' = s ∧ execs b' = x ∧ begun b' = r.
  Definition unchanged (b b' : board) : Prop :=
    same_records b b' ∧ rest_is b' (up b) (limit b) (waiting b) (slots b) (execs b) (begun b).

  Definition stamp_queued (j : job M) (now : time) : job M :=
    Job (set_enqueue_at (set_jstatus (ctx j) Queued) (now / 1000000)) (data j).
  Definition stamp_canceled (j : job M) (now : time) : job M :=
    Job (set_cancel_at (set_jstatus (ctx j) Canceled) (now / 1000000)) (data j).
  Definition stamp_running (j : job M) (now : time) : job M :=
    Job (set_run_at (set_jstatus (ctx j) Running) (now / 1000000)) (data j).
  Definition stamp_over (j : job M) (s : status) (now : time) : job M :=
    Job (set_complete_at (set_jstatus (ctx j) s) (now / 1000000)) (data j).
  Definition without (id : string) (l : list string) : list string := filter (λ k, k ≠ id) l.

  (** In what follows [N] are the readings of the clock made during the step. *)
  Context (N : time → Prop).

  (** [j] becomes the record of its id, which goes to the end of the waiting list. *)
  Definition queued (b b' : board) (j : job M) : Prop :=
    ∃ now, N now ∧ with_record b b' (jid j) (stamp_queued j now) ∧
      rest_is b' (up b) (limit b) (waiting b ++ [jid j]) (slots b) (execs b) (begun b).

  (** Submitting a job. *)
  Definition submit (b : board) (j : job M) (c : enqueue_config) (b' : board) : Prop :=
    match records b (jid j) with
    | None => queued b b' j
    | Some old =>
        if re_run c && bool_decide (jstatus (ctx old) ∈ [Finished; Failed; Canceled]) then queued b b' j
        else if override_data c && negb (bool_decide (jstatus (ctx old) = Running)) then
          with_record b b' (jid j) j ∧
          rest_is b' (up b) (limit b) (waiting b) (slots b) (execs b) (begun b)
        else unchanged b b'
    end.

  (** Cancelling. *)
  Definition cancel (b : board) (id : string) (b' : board) : Prop :=
    match records b id with
    | Some j =>
        if decide (jstatus (ctx j) = Queued) then
          ∃ now, N now ∧ with_record b b' id (stamp_canceled j now) ∧
            rest_is b' (up b) (limit b) (without id (waiting b)) (slots b) (execs b) (begun b)
        else unchanged b b'
    | None => unchanged b b'
    end.

  (** Manual retry; the answer is whether there was something to retry. *)
  Definition retry_by_hand (b : board) (id : string) (answer : bool) (b' : board) : Prop :=
    match records b id with
    | Some j =>
        if bool_decide (jstatus (ctx j) ∈ [Finished; Failed; Canceled])
        then answer = true ∧ queued b b' j
        else answer = false ∧ unchanged b b'
    | None => answer = false ∧ unchanged b b'
    end.

  (** A look at some waiting ids, oldest first, with [n] free slots: which are taken, which are left. *)
  Inductive look (b : board) : nat → list string → list (job M) → list string → Prop :=
  | look_end n : look b n [] [] []
  | look_take n id ids j now now' js left_ :
      records b id = Some j → N now → due j now → N now' →
      look b n ids js left_ →
      look b (S n) (id :: ids) (stamp_running j now' :: js) left_
  | look_leave n id ids j now js left_ :
      records b id = Some j → N now → (n = 0%nat ∨ ¬ due j now) →
      look b n ids js left_ → look b n (id :: ids) js (id :: left_).
  (** Rounds of twenty ids each, until as many ids were looked at as were waiting, or the slots are full.  The
      ids that are left go to the end. *)
  Inductive rounds (b : board) : nat → nat → list string → list (job M) → list string → Prop :=
  | rounds_end m n w : m = 0%nat ∨ n = 0%nat → rounds b m n w [] w
  | rounds_more m n w js left_ js' w' :
      (0 < m)%nat → (0 < n)%nat → look b n (take 20 w) js left_ →
      rounds b (m - 20) (n - length js) (drop 20 w ++ left_) js' w' →
      rounds b m n w (js ++ js') w'.
  (** A tick, on a board with fewer than 2^31 waiting ids.  (Nothing is said here about longer lists.) *)
  Definition tick (b b' : board) : Prop :=
    2 ^ 31 <= Z.of_nat (length (waiting b)) ∨
    ∃ js w', rounds b (length (waiting b)) (limit b - length (slots b)) (waiting b) js w' ∧
      (∀ j, j ∈ js → records b' (jid j) = Some j) ∧
      (∀ k, k ∉ map jid js → records b' k = records b k) ∧
      rest_is b' (up b) (limit b) w' (rev (map jid js) ++ slots b) (execs b ++ map (λ j, (j, Taken)) js) (begun b).

  (** ** The end of an execution *)
  (** [None]: not specified here. *)
  Definition delay (r : retry) : option Z :=
    match strat r with
    | Interval d => if decide (i32_min <= retried_times r < i32_max) then Some d else None
    | ExponentialBackoff d =>
        if decide (0 <= retried_times r <= 29) then Some (d * 2 ^ (retried_times r + 1)) else None
    end.
  Definition wants_retry (r : retry) (failed : bool) : bool :=
    failed && match max_retries r with Some m => retried_times r <? m | None => true end.

  (** What becomes of a job: it waits again, it is over, or the process dies of an overflow. *)
  Inductive ending := Again (j : job M) | Over (s : status) (j : job M) | Dies.
  Definition over (j : job M) (failed : bool) : ending := Over (if failed then Failed else Finished) j.

  (** A job without retry, or for which none is due: a cron job goes on to the next event of its schedule. *)
  Definition ends_without_retry (j : job M) (failed : bool) (e : ending) : Prop :=
    match jtype (ctx j) with
    | Cron x slot n cc =>
        match schedule x with
        | None => e = over j failed
        | Some next =>
            ∃ now now', N now ∧ N now' ∧
            let past := match max_repeat cc with Some m => m <? n | None => false end ||
                        match end_at cc with Some t => t <? now | None => false end in
            match next now' with
            | Some slot' =>
                if decide (i32_min <= n + 1 <= i32_max)
                then e = if past then over j failed
                         else Again (Job (set_jtype (ctx j) (Cron x slot' (n + 1) cc)) (data j))
                else if past then e = Dies ∨ e = over j failed
                else e = Dies ∨ ∃ n', e = Again (Job (set_jtype (ctx j) (Cron x slot' n' cc)) (data j))
            | None => e = if past then over j failed else Again j
            end
        end
    | _ => e = over j failed
    end.
  Definition job_with_retry (j : job M) (r : retry) : job M := Job (set_jretry (ctx j) (Some r)) (data j).
  Definition scheduled (j : job M) (t : time) : job M := Job (set_jtype (ctx j) (ScheduledAt t)) (data j).
  Definition ends (j : job M) (u : user_result M) (e : ending) : Prop :=
    match jretry (ctx j) with
    | None => ends_without_retry j (ur_failed u) e
    | Some r =>
        match ur_retry u with
        | CustomRetryAt r' (Some t) => e = Again (scheduled (job_with_retry j r') t)
        | CustomRetryAt r' None => ends_without_retry (job_with_retry j r') (ur_failed u) e
        | DefaultRetryAt failed =>
            if wants_retry r failed then
              ∃ now, N now ∧
              match delay r with
              | Some d =>
                  let r' := Retry (retried_times r + 1) (max_retries r) (strat r) in
                  e = if decide (dt_min <= now + d <= dt_max)
                      then Again (scheduled (job_with_retry j r') (now + d)) else Dies
              | None => e = Dies ∨ ∃ r' t, max_retries r' = max_retries r ∧ strat r' = strat r ∧ e = Again (scheduled (job_with_retry j r') t)
              end
            else ends_without_retry j (ur_failed u) e
        end
    end.

  (** The process is gone; slots are not given back. *)
  Definition dead (b b' : board) : Prop :=
    same_records b b' ∧ rest_is b' false (limit b) (waiting b) (slots b) [] (begun b).

  Definition run_once (j : job M) : job M := Job (set_run_count (ctx j) (S (run_count (ctx j)))) (data j).

  (** An execution is continued. *)
  Definition go_on (b : board) (i : nat) (u : user_result M) (b' : board) : Prop :=
    let next x r := same_records b b' ∧
      rest_is b' (up b) (limit b) (waiting b) (slots b) (<[i := x]> (execs b)) (begun b ++ r) in
    match execs b !! i with
    | None => unchanged b b'
    | Some (j, Taken) => next (j, Announced) []
    | Some (j, Announced) => next (run_once j, Working) [run_once j]
    | Some (j, Working) => next (Job (ctx j) (ur_data u), Returned) []
    | Some (j, Returned) =>
        ∃ e, ends j u e ∧
        match e with
        | Again j' =>
            ∃ now, N now ∧ with_record b b' (jid j) (stamp_queued j' now) ∧
              rest_is b' (up b) (limit b) (waiting b ++ [jid j]) (without (jid j) (slots b))
                (delete i (execs b)) (begun b)
        | Over s j' =>
            ∃ now, N now ∧ with_record b b' (jid j) (stamp_over j' s now) ∧
              rest_is b' (up b) (limit b) (waiting b) (without (jid j) (slots b)) (delete i (execs b)) (begun b)
        | Dies => dead b b'
        end
    end.

  (** One event: the board before, the answer, the board after. *)
  Definition sched_step (b : board) (e : event M) (r : response M) (b' : board) : Prop :=
    if up b then
      match e with
      | EvEnqueue j c => r = RUnit (Ok tt) ∧ submit b j c b'
      | EvCancel id => r = RUnit (Ok tt) ∧ cancel b id b'
      | EvGet id => r = RJob (records b id) ∧ unchanged b b'
      | EvRetry id => ∃ x, r = RBool (Ok x) ∧ retry_by_hand b id x b'
      | EvConfig c => r = RUnit (Ok tt) ∧ same_records b b' ∧
          rest_is b' true (max_processing_jobs c) (waiting b) (slots b) (execs b) (begun b)
      | EvTick => r = RNone ∧ tick b b'
      | EvTask i u => r = RNone ∧ go_on b i u b'
      | EvPanic | EvCrash => r = RNone ∧ dead b b'
      | EvStart => r = RNone ∧ unchanged b b'
      | EvCrashIn _ _ => False
      end
    else
      match e with
      | EvStart => r = RNone ∧
          tick (Board true 20 (records b) (waiting b) (slots b) [] (begun b)) b'
      | EvEnqueue _ _ | EvCancel _ | EvConfig _ => r = RUnit (Err EMailbox) ∧ unchanged b b'
      | EvRetry _ => r = RBool (Err EMailbox) ∧ unchanged b b'
      | EvGet _ => r = RJob None ∧ unchanged b b'
      | _ => r = RNone ∧ unchanged b b'
      end.
End sched.
Arguments board : clear implicits.
Arguments ending : clear implicits.

(** A run of the scheduler: the events, the answers, and the board at the end.  [clock k] is the reading number
    [k] of the clock; every reading belongs to one step. *)
Inductive sched_run {M} (schedule : string → option (time → option time)) (clock : nat → time) :
    nat → board M → list (event M) → list (response M) → nat → board M → Prop :=
  | run_end k b : sched_run schedule clock k b [] [] k b
  | run_step k k1 k2 b b1 b2 e r es rs :
      (k <= k1)%nat →
      sched_step schedule (λ t, ∃ i, (k <= i < k1)%nat ∧ t = clock i) b e r b1 →
      sched_run schedule clock k1 b1 es rs k2 b2 →
      sched_run schedule clock k b (e :: es) (r :: rs) k2 b2.

(** Two boards that differ only in the rounding of stored times. *)
Definition alike {M} (o1 o2 : option (job M)) : Prop :=
  o1 = o2 ∨ ∃ j j1 j2, o1 = Some j1 ∧ o2 = Some j2 ∧ read_back j j1 ∧ read_back j j2.
Definition same_board {M} (b1 b2 : board M) : Prop :=
  up b1 = up b2 ∧ limit b1 = limit b2 ∧ (∀ id, alike (records b1 id) (records b2 id)) ∧ waiting b1 = waiting b2 ∧
  slots b1 = slots b2 ∧ execs b1 = execs b2 ∧ begun b1 = begun b2.
(** No counter overflows in this step. *)
Definition counts_fit {M} (b : board M) (e : event M) : Prop :=
  match e with
  | EvTick | EvStart => Z.of_nat (length (waiting b)) < 2 ^ 31
  | EvTask i _ => ∀ j, execs b !! i = Some (j, Returned) →
      (∀ r, jretry (ctx j) = Some r → delay r ≠ None) ∧
      (∀ x slot n cc, jtype (ctx j) = Cron x slot n cc → i32_min <= n + 1 <= i32_max)
  | _ => True
  end.

Section refines.
  Context {M : Type} `{SM : Serde M}.
  Context (prof : profile).
  Context (sched : string → option (time → option time)).
  Context (name : string).
  Context (clock : nat → time).

  Definition stage_of (p : phase) : stage :=
    match p with Spawned => Taken | Hooked => Announced | InUser => Working | AfterHook => Returned end.
  (** The board that shows a state of the model. *)
  Definition show (s : sys world M) : board M :=
    Board (alive s) (max_processing_jobs (cfg s)) (stored (sw s)) (rev (qlist name (sw s) Queued))
      (qlist name (sw s) Running) (map (λ t, (t_job t, stage_of (t_phase t))) (tasks s)) (runs s).
  (** The readings of the clock between two states. *)
  Definition read_between (s s' : sys world M) (t : time) : Prop :=
    ∃ k, (reads (sw s) <= k < reads (sw s'))%nat ∧ t = clock k.
  (** No process died in this history. *)
  Definition nobody_died (es : list (event M)) : Prop :=
    ∀ es1 e es2, es = es1 ++ e :: es2 →
      alive (after prof sched name clock es1) = true → alive (after prof sched name clock (es1 ++ [e])) = true.
End refines.
