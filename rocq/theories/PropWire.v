(** Redis with failing connections and commands. *)
From Verif Require Import Spec BackendFacts RedisFacts Wire WireFacts Demo PropCases.

(** C98.  The work queue on Redis, where opening a connection and every single command may fail or lose
    its reply, gives the answers, executions, lists, records and plugin messages that it gives on an
    in-memory backend whose calls fail as a whole ([faulty_h]): call n fails without effect if its
    connection cannot be opened, otherwise as its command does.  So all theorems about failing calls hold
    on Redis. *)
Theorem C98_failing_commands {M} `{SM : Serde M} prof sched name clock link (es : list (event M)) :
  let f n := match link n O with FOk => link n 1%nat | _ => FBefore end in
  let s := sys_run prof sched name (faulty_h clock f) (sys_init (FWorld world_empty 0)) es in
  let r := sys_run prof sched name (wire_h clock link) (sys_init (WWorld rworld_empty 0)) es in
  responses prof sched name (faulty_h clock f) (sys_init (FWorld world_empty 0)) es =
  responses prof sched name (wire_h clock link) (sys_init (WWorld rworld_empty 0)) es ∧
  runs s = runs r ∧ tasks s = tasks r ∧ alive s = alive r ∧
  (∀ x, Backend.rlist (keys (ww (sw r))) (format_queue_name name x) = Some (qlist name (fw (sw s)) x)) ∧
  (∀ id, r_hget (keys (ww (sw r))) STORAGE_HASH id = Ok (mem_sget (st (fw (sw s))) STORAGE_HASH id)) ∧
  log (fw (sw s)) = rlog (ww (sw r)).
Proof. exact (wire_histories prof sched name clock link es). Qed.
Print Assumptions C98_failing_commands.

(** C98.  queue_move of any number of items between lists, whichever command fails: nothing is lost or
    duplicated, no other key changes, the effect is that of a move of some number of items, and a
    reported success is a complete move. *)
Theorem C98_move clock link w from to n fd td lf lt :
  rlist (keys (ww w)) from = Some lf → rlist (keys (ww w)) to = Some lt →
  let r := wire_h clock link _ (QMove from to n fd td) w in
  let k := keys (ww r.1) in
  (∃ lf' lt', rlist k from = Some lf' ∧ rlist k to = Some lt' ∧
    (if String.eqb from to then lf' ≡ₚ lf else lf' ++ lt' ≡ₚ lf ++ lt)) ∧
  (∀ q, q ≠ from → q ≠ to → k !! q = keys (ww w) !! q) ∧
  (∃ m, (m <= n)%nat ∧ k = keys (redis_h clock _ (QMove from to m fd td) (ww w)).1) ∧
  (∀ xs, r.2 = Ok xs → redis_h clock _ (QMove from to n fd td) (ww w) = (ww r.1, Ok xs)).
Proof. exact (wire_move clock link w from to n fd td lf lt). Qed.
Print Assumptions C98_move.

(** The second of three moves is not answered: two items are moved, the caller sees an error and not which. *)
Definition three : wworld := WWorld (RWorld {["q" := RList ["c"; "b"; "a"]]} 0 []) 0.
Definition second_lost (n i : nat) : fault := match i with 2%nat => FAfter | _ => FOk end.
Example C98_case_move :
  let r := wire_h demo_clock second_lost _ (QMove "q" "r" 3 Back Front) three in
  r.2 = Err ERedis ∧ rlist (keys (ww r.1)) "q" = Some ["c"] ∧ rlist (keys (ww r.1)) "r" = Some ["b"; "a"] ∧
  rlist (keys (ww three)) "q" = Some ["c"; "b"; "a"] ∧ rlist (keys (ww three)) "r" = Some [].
Proof. by vm_compute. Qed.
(** The connection of the call that puts "a" back into the waiting list cannot be opened (see C85). *)
Definition link_at (n : nat) (m i : nat) : fault := if (m =? n)%nat && (i =? 0)%nat then FAfter else FOk.
Example C98_case :
  let r := sys_run Debug demo_sched "q" (wire_h demo_clock (link_at 14)) (sys_init (WWorld rworld_empty 0))
    [EvStart; EvEnqueue (job_set_type (demo_job "a" 1) (Cron "sec" 0 1 cron_context_default)) new_re_run; EvTick;
     EvTask 0 (demo_fail 5); EvTask 0 (demo_fail 5); EvTask 0 (demo_fail 5); EvTask 0 (demo_fail 5)] in
  map jid (runs r) = ["a"] ∧ tasks r = [] ∧ alive r = true ∧
  rlist (keys (ww (sw r))) (format_queue_name "q" Queued) = Some [].
Proof. by vm_compute. Qed.
