(** The order of the writes of a step, and what a crash in the middle of it leaves. *)
From Verif Require Import CutFacts PropAny SpecCut HistFacts Demo.
Open Scope Z_scope.

Section theorems.
  Context {M : Type} `{SM : Serde M} {SO : SerdeOk M}.
  Context (prof : profile).
  Context (sched : string → option (time → option time)).
  Context (name : string).
  Context (clock : nat → time).
  Notation step := (sys_step prof sched name (mem_h clock)).
  Notation go := (sys_run prof sched name (mem_h clock)).
  Notation stored := (@stored M SM).
  Notation qlist := (qlist name).
  Notation made_all := (made_all (M := M) name).

  (** C110.  Every step has a list of writes, given by the table [writes].  If the process dies inside the step,
      after any number of effects, the storage shows the first so many of them, in this order; every such prefix
      is left by some crash; the step that is not cut off shows them all. *)
  Theorem C110_prefix (s : sys world M) e :
    sound s → numbers_fit clock s e → calm e → e ≠ EvStart →
    ∃ l, writes sched name clock s e l ∧
      (∀ n, ∃ m, (m <= length l)%nat ∧ made_all (take m l) (sw s) (sw (step s (EvCrashIn e n)).1)) ∧
      (∀ m, (m <= length l)%nat → ∃ n, made_all (take m l) (sw s) (sw (step s (EvCrashIn e n)).1)) ∧
      made_all l (sw s) (sw (step s e).1).
  Proof. exact (cut_step prof sched name clock s e). Qed.
  (** So it is when a process starts. *)
  Theorem C110_start (s : sys world M) :
    alive s = false → (∀ id j, stored (sw s) id = Some j → jid j = id) →
    ∃ l, picking (M := M) name clock (sw s) l ∧
      (∀ n, ∃ m, (m <= length l)%nat ∧ made_all (take m l) (sw s) (sw (step s (EvCrashIn EvStart n)).1)) ∧
      (∀ m, (m <= length l)%nat → ∃ n, made_all (take m l) (sw s) (sw (step s (EvCrashIn EvStart n)).1)) ∧
      made_all l (sw s) (sw (step s EvStart).1).
  Proof. exact (cut_start prof sched name clock s). Qed.

  (** An id that waits is still in the waiting list after a crash inside any step, unless the step cancels it; a
      tick may have moved it to the list of picked jobs. *)
  Theorem C110_waiting_kept (s : sys world M) e n id :
    sound s → numbers_fit clock s e → calm e → e ≠ EvStart → e ≠ EvCancel id →
    id ∈ qlist (sw s) Queued →
    let w' := sw (step s (EvCrashIn e n)).1 in
    id ∈ qlist w' Queued ∨ e = EvTick ∧ id ∈ qlist w' Running.
  Proof. exact (waiting_kept prof sched name clock s e n id). Qed.

  (** A success, and an execution that is to be followed by another one, take the id off its list before they
      write the record.  So there is a point inside the step where a crash leaves a job that is stored as running
      and is in no list; nothing that follows, no call and no restart, ever changes its record or executes it. *)
  Theorem C110_limbo (s : sys world M) i u (orig j r : job M) :
    sound s → in_range (clock (reads (sw s))) j → tasks s !! i = Some (Task orig j AfterHook) →
    stored (sw s) (jid j) = Some r → jstatus (ctx r) = Running → jid j ∉ qlist (sw s) Queued →
    ur_failed u = false ∨ (∃ nj, goes_on sched (clock (reads (sw s))) (clock (S (reads (sw s)))) j u nj) →
    ∃ n, let s' := (step s (EvCrashIn (EvTask i u) n)).1 in
      jid j ∉ qlist (sw s') Queued ∧ jid j ∉ qlist (sw s') Running ∧
      ∀ es, let z := go s' es in
        stored (sw z) (jid j) = Some r ∧ jid j ∉ qlist (sw z) Queued ∧ runs_of (jid j) z = runs_of (jid j) s.
  Proof. exact (limbo prof sched name clock s i u orig j r). Qed.
  (** A final failure is written first: after a crash nothing has happened yet, or it is on record. *)
  Theorem C110_failure_first (s : sys world M) i u (orig j jr : job M) n :
    sound s → in_range (clock (reads (sw s))) j → tasks s !! i = Some (Task orig j AfterHook) →
    ends sched (clock (reads (sw s))) j u jr → ur_failed u = true →
    let w' := sw (step s (EvCrashIn (EvTask i u) n)).1 in
    (∀ st, qlist w' st = qlist (sw s) st) ∧ stored w' (jid j) = stored (sw s) (jid j) ∨
    ∃ j', stored w' (jid j) = Some j' ∧ jstatus (ctx j') = Failed.
  Proof. exact (failure_first prof sched name clock s i u orig j jr n). Qed.
End theorems.
Print Assumptions C110_prefix.
Print Assumptions C110_start.
Print Assumptions C110_waiting_kept.
Print Assumptions C110_limbo.
Print Assumptions C110_failure_first.

(** *** Examples *)
Definition cut_hist : list (event Z) :=
  [EvStart; EvEnqueue (demo_job "a" 1) new_re_run; EvEnqueue (demo_job "b" 1) new_re_run; EvConfig (WqConfig 5 1); EvTick] ++
  [EvTask 0 (demo_ok 5); EvTask 0 (demo_ok 5); EvTask 0 (demo_ok 5)].
Definition cut_at : sys world Z := survivor (fafter (M := Z) Release demo_sched "q" demo_clock (λ _, FOk) cut_hist).
Definition cut_view (e : event Z) (n : nat) :=
  let w := sw (sys_step Release demo_sched "q" (mem_h demo_clock) cut_at (EvCrashIn e n)).1 in
  (qlist "q" w Queued, qlist "q" w Running, qlist "q" w Finished ++ qlist "q" w Failed,
   (jstatus ∘ ctx <$> stored (M := Z) w "a", jstatus ∘ ctx <$> stored (M := Z) w "b")).

Example ex_C110_sound : sound cut_at.
Proof. apply C109_after_outage. by vm_compute. Qed.
Example ex_C110_task : option_map t_phase (tasks cut_at !! 0%nat) = Some AfterHook ∧
  option_map tid (tasks cut_at !! 0%nat) = Some "a" ∧ qlist "q" (sw cut_at) Queued = ["b"].
Proof. by vm_compute. Qed.
(** The end of the execution of "a", cut off after 0, 1, ... effects: the clock is read, "a" is taken off the list,
    the clock is read, the record is written, the plugins are told, "a" is put among the finished. *)
Example ex_C110_cuts : map (cut_view (EvTask 0 (demo_ok 5))) [0; 1; 2; 3; 4; 5; 6]%nat =
  [(["b"], ["a"], [], (Some Running, Some Queued)); (["b"], ["a"], [], (Some Running, Some Queued));
   (["b"], [], [], (Some Running, Some Queued)); (["b"], [], [], (Some Running, Some Queued));
   (["b"], [], [], (Some Finished, Some Queued)); (["b"], [], [], (Some Finished, Some Queued));
   (["b"], [], ["a"], (Some Finished, Some Queued))].
Proof. by vm_compute. Qed.
(** The same with a failure. *)
Example ex_C110_cuts_failure : map (cut_view (EvTask 0 (demo_fail 5))) [1; 2; 3; 4; 5; 6]%nat =
  [(["b"], ["a"], [], (Some Running, Some Queued)); (["b"], ["a"], [], (Some Running, Some Queued));
   (["b"], ["a"], [], (Some Failed, Some Queued)); (["b"], ["a"], [], (Some Failed, Some Queued));
   (["b"], [], [], (Some Failed, Some Queued)); (["b"], [], ["a"], (Some Failed, Some Queued))].
Proof. by vm_compute. Qed.
(** Cancelling "b": between the two writes the record says Canceled, and the id still waits. *)
Example ex_C110_cuts_cancel : map (cut_view (EvCancel "b")) [1; 2; 3; 4; 5]%nat =
  [(["b"], ["a"], [], (Some Running, Some Queued)); (["b"], ["a"], [], (Some Running, Some Queued));
   (["b"], ["a"], [], (Some Running, Some Canceled)); (["b"], ["a"], [], (Some Running, Some Canceled));
   ([], ["a"], [], (Some Running, Some Canceled))].
Proof. by vm_compute. Qed.
Example ex_C110_limbo : ∃ n, let s' := (sys_step Release demo_sched "q" (mem_h demo_clock) cut_at (EvCrashIn (EvTask 0 (demo_ok 5)) n)).1 in
  ∀ es, let z := sys_run Release demo_sched "q" (mem_h demo_clock) s' es in
    "a" ∉ qlist "q" (sw z) Queued ∧ length (runs_of "a" z) = 1%nat ∧ status_of z "a" = Some Running.
Proof.
  assert (∃ orig j, tasks cut_at !! 0%nat = Some (Task orig j AfterHook) ∧ jid j = "a" ∧
    jtype (ctx j) = Normal ∧ jretry (ctx j) = None) as (orig & j & Ht & Hj & Hty & Hre).
  { vm_compute. eexists _, _. split; [reflexivity|]. done. }
  assert (∃ r, stored (M := Z) (sw cut_at) "a" = Some r ∧ jstatus (ctx r) = Running) as (r & Hr & Hst).
  { vm_compute. eexists. split; reflexivity. }
  destruct (C110_limbo Release demo_sched "q" demo_clock cut_at 0 (demo_ok 5) orig j r) as (n & _ & _ & Hn).
  - apply ex_C110_sound.
  - split; [by rewrite Hre|by rewrite Hty].
  - exact Ht.
  - by rewrite Hj.
  - exact Hst.
  - rewrite Hj. assert (qlist "q" (sw cut_at) Queued = ["b"]) as -> by (by vm_compute).
    by intros ?%elem_of_list_singleton.
  - by left.
  - exists n. cbv zeta. intros es. destruct (Hn es) as (E1 & E2 & E3). rewrite Hj in *. split; [exact E2|].
    split; [rewrite E3; by vm_compute|]. unfold status_of. rewrite E1. cbn. by rewrite Hst.
Qed.
(** A new process does not help, nor does submitting the job again, retrying or cancelling it. *)
Example ex_C110_no_way : let z := sys_run Release demo_sched "q" (mem_h demo_clock) cut_at
    [EvCrashIn (EvTask 0 (demo_ok 5)) 3; EvStart; EvEnqueue (demo_job "a" 7) new_re_run; EvRetry "a"; EvCancel "a"; EvTick] in
  length (runs_of "a" z) = 1%nat ∧ status_of z "a" = Some Running ∧ qlist "q" (sw z) Running = ["b"] ∧ qlist "q" (sw z) Queued = [].
Proof. by vm_compute. Qed.
