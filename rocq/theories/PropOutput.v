(** From the output of the user code to the record of the job. *)
From Verif Require Import SpecOutput HistFacts SubmitFacts OutputFacts Demo.
Open Scope Z_scope.

Section theorems.
  Context {M O : Type} `{SM : Serde M} {SO : SerdeOk M}.
  Context (prof : profile).
  Context (sched : string → option (time → option time)).
  Context (name : string).
  Context (clock : nat → time).
  Notation after := (after prof sched name clock).
  Notation ok_hist := (ok_hist prof sched name clock).
  Notation executed_by := (executed_by prof sched name clock).

  (** C104.  When an execution ends and the process lives on, then the record of the job holds the payload that
      post_execute has left and counts this execution; the job is queued if there is to be another try, by
      the retry_at of the code or by is_failed_output and the tries left; it is queued, too, if it is a cron
      job whose schedule goes on; and else it is failed or finished, as is_failed_output says of the output
      of post_execute. *)
  Theorem C104_output (c : code M O) es i u t :
    ok_hist initial (es ++ [EvTask i u]) → executed_by c (es ++ [EvTask i u]) →
    tasks (after es) !! i = Some t → t_phase t = AfterHook → alive (after (es ++ [EvTask i u])) = true →
    let s' := after (es ++ [EvTask i u]) in
    ∃ j, list.last (runs_of (tid t) (after es)) = Some j ∧ ∀ d o, comes_to c j d o →
      ∃ j', stored (sw s') (tid t) = Some j' ∧ data j' = d ∧ run_count (ctx j') = run_count (ctx j) ∧
        (another_try c j d o → jstatus (ctx j') = Queued) ∧
        (¬ another_try c j d o →
           jstatus (ctx j') = Queued ∧ goes_on sched (clock_between clock (after es) s') j ∨
           jstatus (ctx j') = end_status c d o ∧ stops sched (clock_between clock (after es) s') j).
  Proof. exact (output_leads prof sched name clock c es i u t). Qed.
End theorems.
Print Assumptions C104_output.

(** *** Examples *)
(** pre_execute adds 1, execute doubles and returns the payload; an output below 10 is a failure. *)
Definition dbl : code Z Z :=
  Code _ _ (λ _ d, d + 1) (λ _ d, (2 * d, 2 * d)) (λ _ d o, (d, o)) (λ _ o, o <? 10) None.
(** The same, but the code says itself when it is to be tried again: at 1 ms while the payload is below 20. *)
Definition dbl_own : code Z Z :=
  Code _ _ (λ _ d, d + 1) (λ _ d, (2 * d, 2 * d)) (λ _ d o, (d, o)) (λ _ o, o <? 10)
    (Some (λ d r _, (r, if d <? 20 then Some 1000000 else None))).
Local Instance strategy_eq_dec : EqDecision strategy. Proof. solve_decision. Defined.
Local Instance retry_eq_dec : EqDecision retry. Proof. solve_decision. Defined.
Definition same_u (u v : user_result Z) : bool :=
  (ur_data u =? ur_data v) && Bool.eqb (ur_failed u) (ur_failed v) &&
  match ur_retry u, ur_retry v with
  | DefaultRetryAt b, DefaultRetryAt b' => Bool.eqb b b'
  | CustomRetryAt r t, CustomRetryAt r' t' => bool_decide (r = r') && bool_decide (t = t')
  | _, _ => false
  end.
Lemma same_u_ok u v : same_u u v = true → u = v.
Proof.
  intros H. apply andb_true_iff in H as [H H3]. apply andb_true_iff in H as [H1 H2].
  apply Z.eqb_eq in H1. apply Bool.eqb_prop in H2. destruct u as [d b [b1|r t]], v as [d' b' [b2|r' t']]; try done; cbn in *.
  - apply Bool.eqb_prop in H3. by subst.
  - apply andb_true_iff in H3 as [H3 H4]. apply bool_decide_eq_true in H3, H4. by subst.
Qed.
(** One execution of the only task, with the results of [c]. *)
Definition runs_code (c : code Z Z) (j : job Z) : list (event Z) :=
  repeat (EvTask 0 (code_result c j)) 3.
Definition po_job (k : nat) (d : Z) : job Z :=
  set_ctx (job_set_retry (demo_job "a" d) (Retry (Z.of_nat k) (Some 5) (Interval 0)))
    (set_run_count (ctx (job_set_retry (demo_job "a" d) (Retry (Z.of_nat k) (Some 5) (Interval 0)))) (S k)).
Definition po_1 : list (event Z) :=
  [EvStart; ev_run (job_set_retry (demo_job "a" 1) (Retry 0 (Some 5) (Interval 0))); EvTick] ++ runs_code dbl (po_job 0 1).
Definition po_2 : list (event Z) :=
  po_1 ++ [EvTask 0 (code_result dbl (po_job 0 1)); EvTick] ++ runs_code dbl (po_job 1 4).
Notation po_at es u := (stored (sw (demo_after (es ++ [EvTask 0 u]))) "a").
(** "a" fails with 4 and is queued again; then it comes to 10, which is no failure. *)
Example C104_case :
  ok_hist Debug demo_sched "q" demo_clock initial (po_2 ++ [EvTask 0 (code_result dbl (po_job 1 4))]) ∧
  executed_by Debug demo_sched "q" demo_clock dbl (po_2 ++ [EvTask 0 (code_result dbl (po_job 1 4))]) ∧
  map t_phase (tasks (demo_after po_1)) = [AfterHook] ∧ map t_phase (tasks (demo_after po_2)) = [AfterHook] ∧
  comes_to dbl (po_job 0 1) 4 4 ∧ comes_to dbl (po_job 1 4) 10 10 ∧
  (λ j : job Z, (data j, run_count (ctx j), jstatus (ctx j))) <$> po_at po_1 (code_result dbl (po_job 0 1)) = Some (4, 1%nat, Queued) ∧
  (λ j : job Z, (data j, run_count (ctx j), jstatus (ctx j))) <$> po_at po_2 (code_result dbl (po_job 1 4)) = Some (10, 2%nat, Finished).
Proof.
  split; [apply plain_ok; repeat constructor|].
  split; [apply (checked_ok _ _ _ _ _ (λ j u, same_u u (code_result dbl j))); [intros j u; apply same_u_ok|by vm_compute]|].
  split; [by vm_compute|]. split; [by vm_compute|]. split; [by repeat eexists|]. split; [by repeat eexists|].
  split; by vm_compute.
Qed.
(** With its own retry_at the code is tried again although 10 is no failure; 22 is not below 20. *)
Definition po_own (k : nat) (d : Z) : job Z :=
  set_ctx (po_job 0 d) (set_run_count (ctx (po_job 0 d)) k).
Definition po_3 : list (event Z) :=
  [EvStart; ev_run (job_set_retry (demo_job "a" 4) (Retry 0 (Some 5) (Interval 0))); EvTick] ++ runs_code dbl_own (po_own 1 4).
Definition po_4 : list (event Z) :=
  po_3 ++ [EvTask 0 (code_result dbl_own (po_own 1 4)); EvTick] ++ runs_code dbl_own (po_own 2 10).
Example C104_case_own :
  ok_hist Debug demo_sched "q" demo_clock initial (po_4 ++ [EvTask 0 (code_result dbl_own (po_own 2 10))]) ∧
  executed_by Debug demo_sched "q" demo_clock dbl_own (po_4 ++ [EvTask 0 (code_result dbl_own (po_own 2 10))]) ∧
  comes_to dbl_own (po_own 1 4) 10 10 ∧ comes_to dbl_own (po_own 2 10) 22 22 ∧
  (λ j : job Z, (data j, run_count (ctx j), jstatus (ctx j))) <$> po_at po_3 (code_result dbl_own (po_own 1 4)) = Some (10, 1%nat, Queued) ∧
  (λ j : job Z, (data j, run_count (ctx j), jstatus (ctx j))) <$> po_at po_4 (code_result dbl_own (po_own 2 10)) = Some (22, 2%nat, Finished).
Proof.
  split; [apply plain_ok; repeat constructor|].
  split; [apply (checked_ok _ _ _ _ _ (λ j u, same_u u (code_result dbl_own j))); [intros j u; apply same_u_ok|by vm_compute]|].
  split; [by repeat eexists|]. split; [by repeat eexists|].
  split; by vm_compute.
Qed.
