(** What is claimed about the number of executions of a job and its payload. *)
From Verif Require Export Spec SpecRace Exec.

(** The job an execution gives to user code: this execution is counted already. *)
Definition counted {M} (j : job M) : job M := set_ctx j (set_run_count (ctx j) (S (run_count (ctx j)))).

Section count.
  Context {M : Type} `{SM : Serde M}.
  (** What user code may do, given a job. *)
  Context (acts : job M → user_result M → Prop).

  (** [led id d0 n d]: n executions of the id, numbered 1 to n, have led from the payload [d0] to [d],
      each taking the payload the one before has left. *)
  Inductive led (id : string) (d0 : M) : nat → M → Prop :=
  | led_none : led id d0 0 d0
  | led_more j u :
      jid j = id → jstatus (ctx j) = Running → led id d0 (run_count (ctx j)) (data j) →
      acts (counted j) u → led id d0 (S (run_count (ctx j))) (ur_data u).
  (** [last_said id d0 n d b]: execution n has left [d], and is_failed_output said [b] of it. *)
  Definition last_said (id : string) (d0 : M) (n : nat) (d : M) (b : bool) : Prop :=
    ∃ j u, jid j = id ∧ jstatus (ctx j) = Running ∧ n = S (run_count (ctx j)) ∧
      led id d0 (run_count (ctx j)) (data j) ∧ acts (counted j) u ∧ d = ur_data u ∧ ur_failed u = b.

  (** [one_more id d0 n d]: n executions have led to [d], and there has been execution n + 1, whatever it
      has left. *)
  Definition one_more (id : string) (d0 : M) (n : nat) (d : M) : Prop :=
    ∃ j u, jid j = id ∧ jstatus (ctx j) = Running ∧ n = run_count (ctx j) ∧ d = data j ∧
      led id d0 (run_count (ctx j)) (data j) ∧ acts (counted j) u.

  (** The payload of [j] is what run_count executions make of a payload from [start], and a finished
      job has an execution that was not a failure, the last one.  A failed job has an execution that was a
      failure, the last one, or it has been executed once more than it counts: what could not be written at
      the end of that execution is lost, and the job is reported as it was before. *)
  Definition agrees (start : string → M → Prop) (j : job M) : Prop :=
    ∃ d0, start (jid j) d0 ∧ led (jid j) d0 (run_count (ctx j)) (data j) ∧
      (jstatus (ctx j) = Finished → last_said (jid j) d0 (run_count (ctx j)) (data j) false) ∧
      (jstatus (ctx j) = Failed →
         last_said (jid j) d0 (run_count (ctx j)) (data j) true ∨ one_more (jid j) d0 (run_count (ctx j)) (data j)).
  (** The same for the job given to user code. *)
  Definition agrees_run (start : string → M → Prop) (j : job M) : Prop :=
    ∃ d0 n, start (jid j) d0 ∧ led (jid j) d0 n (data j) ∧ run_count (ctx j) = S n.

  (** Submitted jobs agree, and user code acts. *)
  Definition acting (start : string → M → Prop) (r : race M world) (x : race_event M) : Prop :=
    match x with
    | RBegin i (EvEnqueue j _) _ => agrees start j
    | RBegin i (EvTask k u) _ => ∀ t, has_task r i k t →
        (t_phase t = InUser → acts (t_job t) u) ∧
        (t_phase t = AfterHook → acts (counted (t_orig t)) u ∧ ur_data u = data (t_job t))
    | _ => True
    end.
End count.

(** Submitted jobs are new, and all executions are of the code [c]. *)
Definition coded {M O} `{SM : Serde M} (c : code M O) (start : string → M → Prop) (r : race M world) (x : race_event M) : Prop :=
  match x with
  | RBegin i (EvEnqueue j _) _ => start (jid j) (data j) ∧ run_count (ctx j) = 0%nat ∧ jstatus (ctx j) = Queued
  | RBegin i (EvTask k u) _ => ∀ t, has_task r i k t → u = code_result c (counted (t_orig t))
  | _ => True
  end.
(** The three calls of an execution of the code [c]: they leave the payload [d] and return [o]. *)
Definition comes_to {M O} (c : code M O) (j : job M) (d : M) (o : O) : Prop :=
  ∃ d1 d2 o2, pre_execute c (ctx j) (data j) = d1 ∧ execute c (ctx j) d1 = (d2, o2) ∧
    post_execute c (ctx j) d2 o2 = (d, o).
(** What an execution of the code [c] does.  Whether it failed is asked twice by the default rule for retries. *)
Definition does {M O} (c : code M O) (j : job M) (u : user_result M) : Prop :=
  ∃ d o, comes_to c j d o ∧ ur_data u = d ∧ ur_failed u = is_failed_output c d o ∧
    match retry_at c with
    | None => ur_retry u = DefaultRetryAt (is_failed_output c d o)
    | Some f => ∀ r, jretry (ctx j) = Some r → ur_retry u = CustomRetryAt (f d r o).1 (f d r o).2
    end.
