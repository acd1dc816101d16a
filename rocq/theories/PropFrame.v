(** An operation on one job leaves all other jobs alone. *)
From Verif Require Import Spec SpecFrame FrameFacts Demo.

Section theorems.
  Context {M : Type} `{SM : Serde M} {SO : SerdeOk M}.
  Context (prof : profile).
  Context (sched : string → option (time → option time)).
  Context (name : string).
  Context (clock : nat → time) (faults : nat → fault).
  Notation step := (sys_step prof sched name (faulty_h clock faults)).
  Notation fgo := (sys_run prof sched name (faulty_h clock faults) (sys_init (M := M) (FWorld world_empty 0))).

  (** C101.  From every state of the backend, with failing calls, also if the process dies inside the step:
      a submission, cancellation, manual retry, query, change of settings or step of a task changes no record of a job
      it is not about, and in every list it leaves the other ids and their order as they are. *)
  Theorem C101_step (s : sys fworld M) e :
    about_all e = false →
    others_same (about (fw (sw s)) (tasks s) e) (fw (sw s)) (fw (sw (step s e).1)).
  Proof. exact (step_frame prof sched name clock faults s e). Qed.
  (** And if the actor lives on, all tasks are as they were but the one polled: it is over, or it is still for the same job. *)
  Theorem C101_tasks (s : sys fworld M) e :
    about_all e = false → alive (step s e).1 = true →
    tasks (step s e).1 = tasks s ∨
    ∃ i u, e = EvTask i u ∧
      (tasks (step s e).1 = delete i (tasks s) ∨
       ∃ t t', tasks s !! i = Some t ∧ t_orig t' = t_orig t ∧ jid (t_job t') = jid (t_job t) ∧
         tasks (step s e).1 = <[i:=t']> (tasks s)).
  Proof. exact (step_tasks prof sched name clock faults s e). Qed.
  (** In histories: as long as there is no tick and no start, a job that no task executes and no event names keeps its
      record, keeps its places in the lists, and gets no task. *)
  Theorem C101_quiet es es' id :
    Forall (λ e, about_all e = false ∧ id ∉ named e) es' →
    (∀ t, t ∈ tasks (fgo es) → jid (t_orig t) ≠ id ∧ jid (t_job t) ≠ id) →
    (∀ t, t ∈ tasks (fgo (es ++ es')) → jid (t_orig t) ≠ id ∧ jid (t_job t) ≠ id) ∧
    mem_sget (st (fw (sw (fgo (es ++ es'))))) STORAGE_HASH id = mem_sget (st (fw (sw (fgo es)))) STORAGE_HASH id ∧
    ∀ q, length (filter (λ x, x = id) (default [] (queues (st (fw (sw (fgo (es ++ es'))))) !! q))) =
         length (filter (λ x, x = id) (default [] (queues (st (fw (sw (fgo es)))) !! q))).
  Proof. exact (quiet prof sched name clock faults es es' id). Qed.
End theorems.
Print Assumptions C101_step.
Print Assumptions C101_tasks.
Print Assumptions C101_quiet.

(** Three jobs, every 17th call failing after it took effect (so that the third submission is cut short); a cancellation of one, while another one
    runs to its end and the third waits. *)
Definition frame_faults (n : nat) : fault := if Nat.eqb (n mod 17) 16 then FAfter else FOk.
Definition frame_run : list (event Z) → sys fworld Z :=
  sys_run Debug demo_sched "q" (faulty_h demo_clock frame_faults) (sys_init (FWorld world_empty 0)).
Definition frame_before : list (event Z) :=
  [EvStart; ev_run (demo_job "a" 1); EvTick; ev_run (demo_job "b" 2); ev_run (demo_job "c" 3); ev_run (demo_job "b" 2)].
Definition frame_after : list (event Z) :=
  [EvCancel "b"; EvTask 0 (demo_ok 1); EvTask 0 (demo_ok 1); EvGet "c"; EvTask 0 (demo_ok 1); EvCrashIn (EvTask 0 (demo_ok 1)) 3].
Definition frame_view (s : sys fworld Z) :=
  (map (λ id, match @stored Z _ (fw (sw s)) id with Some j => Some (jstatus (ctx j)) | None => None end) ["a"; "b"; "c"],
   map (λ st', default [] (queues (Backend.st (fw (sw s))) !! format_queue_name "q" st')) [Queued; Running; Canceled; Finished]).
Example C101_case :
  Forall (λ e, about_all e = false ∧ "c" ∉ named e) frame_after ∧
  map (λ t, jid (t_orig t)) (tasks (frame_run frame_before)) = ["a"] ∧
  about (M := Z) (fw (sw (frame_run frame_before))) (tasks (frame_run frame_before)) (EvCancel "b") = ["b"; "b"] ∧
  about (M := Z) (fw (sw (frame_run frame_before))) (tasks (frame_run frame_before)) (EvTask 0 (demo_ok 1)) = ["a"; "a"] ∧
  frame_view (frame_run frame_before) = ([Some Running; Some Queued; None], [["c"; "b"]; ["a"]; []; []]) ∧
  frame_view (frame_run (frame_before ++ frame_after)) = ([Some Running; Some Canceled; None], [["c"]; []; []; []]).
Proof.
  split; [|by vm_compute].
  repeat constructor; apply (bool_decide_eq_true_1 (_ ∉ _)); by vm_compute.
Qed.
