(** Operations on different jobs commute. *)
From Verif Require Import Spec SpecFrame CommuteFacts Demo.

Section theorems.
  Context {M : Type} `{SM : Serde M}.
  Context (prof : profile).
  Context (sched : string → option (time → option time)).
  Context (name : string).
  Context (now : time).
  Notation step := (sys_step (M := M) prof sched name (mem_h (λ _, now))).

  (** C102.  From every state: two calls or steps that concern different jobs (and neither of which kills the queue)
      may be handled in either order at the same time; each gives the same answer as if it were handled alone, and
      the end is the same up to the order of ids within lists, messages to plugins and executions. *)
  Theorem C102_commute (s : sys world M) e1 e2 :
    about_all e1 = false → about_all e2 = false → separate (sw s) (tasks s) e1 e2 →
    alive (step s e1).1 = true → alive (step s e2).1 = true →
    (step (step s e1).1 e2).2 = (step s e2).2 ∧ (step (step s e2).1 e1).2 = (step s e1).2 ∧
    same_but_order (step (step s e1).1 e2).1 (step (step s e2).1 e1).1.
  Proof. exact (commute prof sched name now s e1 e2). Qed.
  (** The same for steps of two tasks; if the first one ends, the second one moves up in the list of tasks. *)
  Theorem C102_tasks (s : sys world M) i u i' u' :
    (i < i')%nat →
    (∀ id, id ∈ concerns (sw s) (tasks s) (EvTask i u) → id ∉ concerns (sw s) (tasks s) (EvTask i' u')) →
    alive (step s (EvTask i u)).1 = true → alive (step s (EvTask i' u')).1 = true →
    let k := if (length (tasks (step s (EvTask i u)).1) <? length (tasks s))%nat then pred i' else i' in
    same_but_order (step (step s (EvTask i u)).1 (EvTask k u')).1 (step (step s (EvTask i' u')).1 (EvTask i u)).1.
  Proof. exact (commute_tasks prof sched name now s i u i' u'). Qed.
End theorems.
Print Assumptions C102_commute.
Print Assumptions C102_tasks.

(** "a" and "b" are about to end, "c" is waiting.  The end of "a" (which is to be tried again) and the cancellation
    of "c" commute; so do the ends of "a" and "b"; the order of two submissions shows in the waiting list. *)
Definition still : nat → time := λ _, 5000000.
Definition still_step := sys_step (M := Z) Debug demo_sched "q" (mem_h still).
Definition still_run := sys_run (M := Z) Debug demo_sched "q" (mem_h still).
Definition retried (id : string) : job Z := job_set_retry (demo_job id 1) (new_interval_retry (Some 3) 1000000).
Definition commute_state : sys world Z :=
  still_run (sys_init world_empty)
    ([EvStart; ev_run (retried "a"); ev_run (demo_job "b" 2); EvTick; ev_run (demo_job "c" 3)] ++
     take 3 (demo_polls 0 (demo_ok 1)) ++ take 3 (demo_polls 1 (demo_ok 1))).
Definition commute_view (s : sys world Z) :=
  (map (λ id, option_map (λ j : job Z, jstatus (ctx j)) (stored (sw s) id)) ["a"; "b"; "c"; "x"; "y"],
   rev (qlist "q" (sw s) Queued), qlist "q" (sw s) Running, length (tasks s)).
Definition both (e1 e2 : event Z) := commute_view (still_step (still_step commute_state e1).1 e2).1.
Example C102_case :
  let here := concerns (sw commute_state) (tasks commute_state) in
  (here (EvTask 0 (demo_fail 1)), here (EvTask 1 (demo_ok 1)), here (EvCancel "c")) = (["a"; "a"], ["b"; "b"], ["c"; "c"]) ∧
  map (λ e, alive (still_step commute_state e).1) [EvTask 0 (demo_fail 1); EvTask 1 (demo_ok 1); EvCancel "c"] = [true; true; true] ∧
  commute_view commute_state = ([Some Running; Some Running; Some Queued; None; None], ["c"], ["b"; "a"], 2%nat) ∧
  both (EvTask 0 (demo_fail 1)) (EvCancel "c") =
    ([Some Queued; Some Running; Some Canceled; None; None], ["a"], ["b"], 1%nat) ∧
  both (EvCancel "c") (EvTask 0 (demo_fail 1)) =
    ([Some Queued; Some Running; Some Canceled; None; None], ["a"], ["b"], 1%nat) ∧
  both (EvTask 0 (demo_ok 1)) (EvTask 0 (demo_ok 1)) =
    ([Some Finished; Some Finished; Some Queued; None; None], ["c"], [], 0%nat) ∧
  both (EvTask 1 (demo_ok 1)) (EvTask 0 (demo_ok 1)) =
    ([Some Finished; Some Finished; Some Queued; None; None], ["c"], [], 0%nat) ∧
  both (ev_run (demo_job "x" 1)) (ev_run (demo_job "y" 1)) =
    ([Some Running; Some Running; Some Queued; Some Queued; Some Queued], ["c"; "x"; "y"], ["b"; "a"], 2%nat) ∧
  both (ev_run (demo_job "y" 1)) (ev_run (demo_job "x" 1)) =
    ([Some Running; Some Running; Some Queued; Some Queued; Some Queued], ["c"; "y"; "x"], ["b"; "a"], 2%nat).
Proof. by vm_compute. Qed.
