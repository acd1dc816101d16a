(** How `Job<M>` is written to and read from storage: the serde derives of job/*.rs with serde_json.
    Simplification: JSON values instead of JSON text (Text.v has the text); integer fields are not
    range-checked when read, since every value was written from a Rust integer of the same type.  A
    missing `data` is an error (serde would take it as None if the payload type were an Option). *)
From Verif Require Export Types.

Inductive json :=
  | JNull
  | JBool (b : bool)
  | JNum (z : Z)
  | JStr (s : string)
  | JArr (l : list json)
  | JObj (l : list (string * json)).

(** The user's `Serialize` / `DeserializeOwned` of the payload type M.  [ser] may fail, e.g. for maps
    with non-string keys, which serde_json refuses. *)
Class Serde (M : Type) := { ser : M → option json; de : json → option M }.

(** A payload type whose serialization always works and can be read back. *)
Class SerdeOk (M : Type) {S : Serde M} := {
  ser_total : ∀ m : M, is_Some (ser m);
  de_ser : ∀ (m : M) j, ser m = Some j → de j = Some m;
}.

(** Field lookup in a JSON object (serde's generated visitor). *)
Fixpoint field (k : string) (l : list (string * json)) : option json :=
  match l with
  | [] => None
  | (k', v) :: l' => if String.eqb k k' then Some v else field k l'
  end.

(** A struct is read from an object that has no field of the struct twice, whatever other fields it has,
    or from an array with an element for every field (serde derive, serde_json's deserialize_struct). *)
Definition as_struct (ks : list string) (j : json) : option (list (string * json)) :=
  match j with
  | JObj l => if forallb (λ k, (length (List.filter (λ p, String.eqb k p.1) l) <=? 1)%nat) ks then Some l else None
  | JArr vs => if (length vs =? length ks)%nat then Some (zip ks vs) else None
  | _ => None
  end.

(** A unit variant is read from its name or from an object that has null under its name. *)
Definition unit_variant (j : json) : option string :=
  match j with JStr s | JObj [(s, JNull)] => Some s | _ => None end.

(** chrono::serde::ts_microseconds (job_context.rs:15,25,29): whole microseconds, rounded down. *)
Definition to_us (t : time) : Z := t / 1000.
Definition of_us (u : Z) : time := u * 1000.
Definition trunc_us (t : time) : time := of_us (to_us t).

(** serde_with::DurationMicroSeconds<i64> (retry.rs:11,14): rounded to the nearest microsecond,
    halves away from zero. *)
Definition dur_to_us (d : duration) : Z :=
  if 0 <=? d then (d + 500) / 1000 else - ((- d + 500) / 1000).
Definition round_us (d : duration) : duration := dur_to_us d * 1000.

Definition enc_opt {A} (f : A → json) (o : option A) : json :=
  match o with Some a => f a | None => JNull end.
(** `Option<T>` fields: missing or null is None (serde derive). *)
Definition dec_opt {A} (f : json → option A) (o : option json) : option (option A) :=
  match o with
  | None | Some JNull => Some None
  | Some j => match f j with Some a => Some (Some a) | None => None end
  end.
Definition dec_num (j : json) : option Z := match j with JNum z => Some z | _ => None end.
Definition dec_str (j : json) : option string := match j with JStr s => Some s | _ => None end.
Definition dec_nat (j : json) : option nat :=
  match j with JNum z => if 0 <=? z then Some (Z.to_nat z) else None | _ => None end.

(** job_context.rs:54-61 (unit variants are strings). *)
Definition enc_status (s : status) : json := JStr (status_name s).
Definition dec_status (j : json) : option status :=
  match unit_variant j with
  | Some s =>
      if String.eqb s "Queued" then Some Queued
      else if String.eqb s "Running" then Some Running
      else if String.eqb s "Finished" then Some Finished
      else if String.eqb s "Failed" then Some Failed
      else if String.eqb s "Canceled" then Some Canceled
      else None
  | None => None
  end.

(** job_context.rs:11-17. *)
Definition enc_cc (c : cron_context) : json :=
  JObj [("tick_number", JNum (tick_number c));
        ("max_repeat", enc_opt JNum (max_repeat c));
        ("end_at", enc_opt (λ t, JNum (to_us t)) (end_at c))].
Definition dec_cc (j : json) : option cron_context :=
  match as_struct ["tick_number"; "max_repeat"; "end_at"] j with
  | Some l =>
      t ← (field "tick_number" l ≫= dec_num);
      m ← dec_opt dec_num (field "max_repeat" l);
      ej ← field "end_at" l;   (* no default with `serde(with)`: a missing field is an error *)
      e ← dec_opt (λ j, of_us <$> dec_num j) (Some ej);
      Some (CronContext t m e)
  | None => None
  end.

(** job_context.rs:19-33: externally tagged enum; the last two fields of Cron have serde(default). *)
Definition enc_type (t : job_type) : json :=
  match t with
  | Normal => JStr "Normal"
  | ScheduledAt a => JObj [("ScheduledAt", JNum (to_us a))]
  | Cron e n r c => JObj [("Cron", JArr [JStr e; JNum (to_us n); JNum r; enc_cc c])]
  end.
Definition dec_type (j : json) : option job_type :=
  match j with
  | JStr s => if String.eqb s "Normal" then Some Normal else None
  | JObj [(k, v)] =>
      if String.eqb k "Normal" then match v with JNull => Some Normal | _ => None end
      else if String.eqb k "ScheduledAt" then (λ u, ScheduledAt (of_us u)) <$> dec_num v
      else if String.eqb k "Cron" then
        match v with
        | JArr [JStr e; JNum n] => Some (Cron e (of_us n) 0 cron_context_default)
        | JArr [JStr e; JNum n; JNum r] => Some (Cron e (of_us n) r cron_context_default)
        | JArr [JStr e; JNum n; JNum r; c] => Cron e (of_us n) r <$> dec_cc c
        | _ => None
        end
      else None
  | _ => None
  end.

(** retry.rs:7-23. *)
Definition enc_strat (s : strategy) : json :=
  match s with
  | Interval d => JObj [("Interval", JNum (dur_to_us d))]
  | ExponentialBackoff d => JObj [("ExponentialBackoff", JNum (dur_to_us d))]
  end.
Definition dec_strat (j : json) : option strategy :=
  match j with
  | JObj [(k, JNum u)] =>
      if String.eqb k "Interval" then Some (Interval (of_us u))
      else if String.eqb k "ExponentialBackoff" then Some (ExponentialBackoff (of_us u))
      else None
  | _ => None
  end.
Definition enc_retry (r : retry) : json :=
  JObj [("retried_times", JNum (retried_times r));
        ("max_retries", enc_opt JNum (max_retries r));
        ("strategy", enc_strat (strat r))].
Definition dec_retry (j : json) : option retry :=
  match as_struct ["retried_times"; "max_retries"; "strategy"] j with
  | Some l =>
      n ← (field "retried_times" l ≫= dec_num);
      m ← dec_opt dec_num (field "max_retries" l);
      s ← (field "strategy" l ≫= dec_strat);
      Some (Retry n m s)
  | None => None
  end.

(** job_context.rs:69-82 (job_id has serde(default)). *)
Definition enc_context (c : context) : json :=
  JObj [("job_id", JStr (job_id c));
        ("job_type", enc_type (jtype c));
        ("job_status", enc_status (jstatus c));
        ("retry", enc_opt enc_retry (jretry c));
        ("created_at", JNum (created_at c));
        ("enqueue_at", enc_opt JNum (enqueue_at c));
        ("run_at", enc_opt JNum (run_at c));
        ("complete_at", enc_opt JNum (complete_at c));
        ("cancel_at", enc_opt JNum (cancel_at c));
        ("run_count", JNum (Z.of_nat (run_count c)))].
Definition dec_context (j : json) : option context :=
  match as_struct ["job_id"; "job_type"; "job_status"; "retry"; "created_at"; "enqueue_at"; "run_at";
                   "complete_at"; "cancel_at"; "run_count"] j with
  | Some l =>
      id ← match field "job_id" l with None => Some "" | Some v => dec_str v end;
      ty ← (field "job_type" l ≫= dec_type);
      st ← (field "job_status" l ≫= dec_status);
      re ← dec_opt dec_retry (field "retry" l);
      ca ← (field "created_at" l ≫= dec_num);
      eq ← dec_opt dec_num (field "enqueue_at" l);
      ra ← dec_opt dec_num (field "run_at" l);
      co ← dec_opt dec_num (field "complete_at" l);
      cn ← dec_opt dec_num (field "cancel_at" l);
      rc ← (field "run_count" l ≫= dec_nat);
      Some (Context_ id ty st re ca eq ra co cn rc)
  | None => None
  end.

(** job/mod.rs:21-25. *)
Definition enc_job {M} `{Serde M} (j : job M) : option json :=
  d ← ser (data j);
  Some (JObj [("context", enc_context (ctx j)); ("data", d)]).
Definition dec_job {M} `{Serde M} (v : json) : option (job M) :=
  match as_struct ["context"; "data"] v with
  | Some l =>
      c ← (field "context" l ≫= dec_context);
      d ← (field "data" l ≫= de);
      Some (Job c d)
  | None => None
  end.

(** What one trip through storage does to a job: times are cut to microseconds. *)
Definition norm_cc (c : cron_context) : cron_context :=
  CronContext (tick_number c) (max_repeat c) (trunc_us <$> end_at c).
Definition norm_type (t : job_type) : job_type :=
  match t with
  | Normal => Normal
  | ScheduledAt a => ScheduledAt (trunc_us a)
  | Cron e n r c => Cron e (trunc_us n) r (norm_cc c)
  end.
Definition norm_strat (s : strategy) : strategy :=
  match s with
  | Interval d => Interval (round_us d)
  | ExponentialBackoff d => ExponentialBackoff (round_us d)
  end.
Definition norm_retry (r : retry) : retry :=
  Retry (retried_times r) (max_retries r) (norm_strat (strat r)).
Definition norm_ctx (c : context) : context :=
  Context_ (job_id c) (norm_type (jtype c)) (jstatus c) (norm_retry <$> jretry c) (created_at c)
           (enqueue_at c) (run_at c) (complete_at c) (cancel_at c) (run_count c).
Definition norm_job {M} (j : job M) : job M := Job (norm_ctx (ctx j)) (data j).
