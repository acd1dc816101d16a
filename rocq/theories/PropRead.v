(** Reading stored jobs. *)
From Verif Require Import Json SpecRead ReadFacts Demo.

Section theorems.
  Context {M : Type} `{SM : Serde M}.

  (** C97.  Exactly these values are read as a job, each as one job: the order of the fields and other
      fields play no role, optional fields, the id and the last two parts of a cron type may be absent. *)
  Theorem C97_reads v (j : job M) : dec_job v = Some j ↔ reads_job v j.
  Proof. exact (dec_job_spec v j). Qed.

  Theorem C97_context v c : dec_context v = Some c ↔ reads_context v c.
  Proof. exact (dec_context_spec v c). Qed.

  (** C97.  In particular a job is read as the same job with its two parts in the other order and with
      other parts beside them. *)
  Theorem C97_more l l' (j : job M) :
    (∀ k x, k ∈ ["context"; "data"] → (k, x) ∈ l ↔ (k, x) ∈ l') →
    NoDup (l.*1) → NoDup (l'.*1) → dec_job (JObj l) = Some j → dec_job (JObj l') = Some j.
  Proof. exact (reads_more l l' j). Qed.
End theorems.

(** A cron job as it may have been written before cron jobs counted: the oldest form of the type, no
    run or cancel times, no retry rule, a field that is no longer there, everything in another order. *)
Definition old_context : list (string * json) :=
  [("run_count", JNum 3); ("job_status", JStr "Queued"); ("priority", JNum 7); ("created_at", JNum 5);
   ("job_type", JObj [("Cron", JArr [JStr "sec"; JNum 2000000])]); ("enqueue_at", JNull); ("job_id", JStr "a")].
Example C97_case_old :
  dec_job (M := Z) (JObj [("data", JNum 1); ("note", JStr "x"); ("context", JObj old_context)]) =
  Some (Job (Context_ "a" (Cron "sec" 2000000000 0 (CronContext 0 None None)) Queued None 5 None None None None 3) 1).
Proof. by vm_compute. Qed.
(** A field that is there twice, a cron context without end_at, a job without a status, a type that
    does not exist. *)
Example C97_case_not :
  dec_job (M := Z) (JObj [("data", JNum 1); ("context", JObj old_context); ("data", JNum 1)]) = None ∧
  dec_context (JObj (("job_id", JStr "a") :: old_context)) = None ∧
  dec_cc (JObj [("tick_number", JNum 0)]) = None ∧
  dec_cc (JObj [("tick_number", JNum 0); ("end_at", JNull)]) = Some (CronContext 0 None None) ∧
  dec_context (JObj [("run_count", JNum 3); ("created_at", JNum 5); ("job_type", JStr "Normal")]) = None ∧
  dec_type (JStr "Cron") = None.
Proof. by vm_compute. Qed.
Example C97_case_hyps :
  let l := [("context", JObj old_context); ("data", JNum 1)] in
  let l' := [("data", JNum 1); ("note", JStr "x"); ("context", JObj old_context)] in
  (∀ k x, k ∈ ["context"; "data"] → (k, x) ∈ l ↔ (k, x) ∈ l') ∧ NoDup (l.*1) ∧ NoDup (l'.*1).
Proof.
  intros l l'. split; [|split; apply (bool_decide_eq_true_1 (NoDup _)); by vm_compute].
  subst l l'. generalize old_context. intros o k x Hk. rewrite !elem_of_cons, !elem_of_nil in *. naive_solver.
Qed.

Print Assumptions C97_reads.
Print Assumptions C97_context.
Print Assumptions C97_more.
