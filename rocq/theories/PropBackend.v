(** Properties C01-C05: the backends. *)
From Verif Require Import Spec BackendFacts RedisFacts Demo.

(** C01.  For any sequence of calls, InMemory gives the answers of plain lists ([deque_h] in Spec.v). *)
Theorem C01_inmemory_is_lists clock (cs : calls) :
  answers (mem_h clock) cs world_empty = answers (deque_h clock) cs dworld_empty.
Proof. exact (proj1 (answers_sim _ _ deque_rel cs _ _ (λ X e _, deque_sim clock X e) deque_rel_empty)). Qed.
Print Assumptions C01_inmemory_is_lists.

(** Also if later calls depend on earlier answers. *)
Theorem C01_inmemory_is_lists_adaptive clock {A} (p : prog A) :
  (run (mem_h clock) p world_empty).2 = (run (deque_h clock) p dworld_empty).2.
Proof. exact (proj1 (deque_run clock p _ _ deque_rel_empty)). Qed.
Print Assumptions C01_inmemory_is_lists_adaptive.

Example C01_example :
  answers (mem_h demo_clock)
    [existT _ (QPush "q" "a"); existT _ (QPush "q" "b"); existT _ (QPush "q" "a"); existT _ (QPush "q" "c");
     existT _ (QMove "q" "r" 2 Back Front); existT _ (QRemove "q" "a"); existT _ (QGet "r" 5 Front);
     existT _ (QCount "q")] world_empty =
  [existT _ (Ok tt); existT _ (Ok tt); existT _ (Ok tt); existT _ (Ok tt);
   existT _ (Ok ["a"; "b"]); existT _ (Ok tt); existT _ (Ok ["b"; "a"]); existT _ (Ok 1%nat)].
Proof. vm_compute. reflexivity. Qed.

(** C02.  storage_get returns the last value written under this hash and key. *)
Theorem C02_storage_last_write clock (cs : calls) hash key :
  (mem_h clock _ (SGet hash key) (run_calls (mem_h clock) cs world_empty)).2 = Ok (last_write hash key cs).
Proof.
  cbn. rewrite last_write_gen. by destruct (last_write hash key cs).
Qed.
Print Assumptions C02_storage_last_write.

Example C02_example :
  last_write "h" "k" [existT _ (SUpsert "h" "k" (Some (JNum 1))); existT _ (SUpsert "g" "k" (Some (JNum 2)));
                      existT _ (QPush "h" "k"); existT _ (SUpsert "h" "l" (Some (JNum 3)))] = Some (Some (JNum 1)).
Proof. reflexivity. Qed.

(** C03.  queue_move loses and duplicates nothing, for equal or different queues. *)
Theorem C03_move_keeps_items clock w f t n fd td :
  let r := mem_h clock _ (QMove f t n fd td) w in
  let from := default [] (queues (st w) !! f) in
  r.2 = Ok (take n (from_end fd from)) ∧
  length (take n (from_end fd from)) = Nat.min n (length from) ∧
  all_items (st r.1) ≡ₚ all_items (st w).
Proof. exact (mem_move_all clock w f t n fd td). Qed.
Print Assumptions C03_move_keeps_items.

Example C03_example :
  let w := run_calls (mem_h demo_clock)
    [existT _ (QPush "q" "a"); existT _ (QPush "q" "b"); existT _ (QPush "q" "c")] world_empty in
  (mem_h demo_clock _ (QMove "q" "q" 2 Back Front) w).2 = Ok ["a"; "b"] ∧
  all_items (st (mem_h demo_clock _ (QMove "q" "q" 2 Back Front) w).1) = ["b"; "a"; "c"].
Proof. vm_compute. done. Qed.

(** C04.  As stated for all call sequences it is false ... *)
Theorem C04_redis_refuted :
  ∃ (p : prog (result (list string))),
    (run (mem_h (λ _, 0)) p world_empty).2 ≠ (run (redis_h (λ _, 0)) p rworld_empty).2.
Proof. exact redis_get_zero. Qed.
Print Assumptions C04_redis_refuted.
(** ... also for moves of several items within one list. *)
Theorem C04_redis_move_refuted :
  ∃ (p : prog (result (list string))),
    (run (mem_h (λ _, 0)) p world_empty).2 ≠ (run (redis_h (λ _, 0)) p rworld_empty).2.
Proof. exact redis_self_move. Qed.
Print Assumptions C04_redis_move_refuted.

(** It holds for calls that get at least one item, move at most one item within the same list, and keep
    list keys and hash keys apart ([portable] in Spec.v) ... *)
Theorem C04_redis_partial lk (Hlk : ∀ q, Decision (lk q)) clock {A} (p : prog A) :
  portable lk p →
  (run (mem_h clock) p world_empty).2 = (run (redis_h clock) p rworld_empty).2.
Proof. exact (λ H, proj1 (redis_run lk Hlk clock p _ _ H (redis_rel_empty lk))). Qed.
Print Assumptions C04_redis_partial.

(** ... which covers everything the work queue does: in every history, also with crashes inside handlers,
    clients get the same answers and the same user code is executed. *)
Theorem C04_work_queue_same_on_redis {M} `{SM : Serde M} prof sched name clock (es : list (event M)) :
  let s := sys_run prof sched name (mem_h clock) (sys_init world_empty) es in
  let r := sys_run prof sched name (redis_h clock) (sys_init rworld_empty) es in
  responses prof sched name (mem_h clock) (sys_init world_empty) es =
  responses prof sched name (redis_h clock) (sys_init rworld_empty) es ∧
  runs s = runs r ∧ tasks s = tasks r ∧ alive s = alive r ∧
  ∀ st_, Backend.rlist (keys (sw r)) (format_queue_name name st_) = Some (qlist name (sw s) st_).
Proof. exact (redis_histories prof sched name clock es). Qed.
Print Assumptions C04_work_queue_same_on_redis.

(** What the two ways of writing the bounds of LRANGE give: items [s] to [e], counted from the
    front or, with negative bounds, from the back. *)
Theorem C04_lrange (l : list string) (s e i : nat) :
  r_lrange l (Z.of_nat s) (Z.of_nat e) !! i = if decide (s + i ≤ e)%nat then l !! (s + i)%nat else None.
Proof. exact (lrange_lookup l s e i). Qed.
Print Assumptions C04_lrange.
Theorem C04_lrange_from_end (l : list string) (s e : nat) :
  (s < length l)%nat → (e < length l)%nat →
  r_lrange l (Z.of_nat s - Z.of_nat (length l)) (Z.of_nat e - Z.of_nat (length l)) =
  r_lrange l (Z.of_nat s) (Z.of_nat e).
Proof. exact (lrange_from_end l s e). Qed.
Print Assumptions C04_lrange_from_end.
Example C04_lrange_case : r_lrange ["a"; "b"; "c"; "d"] 1 2 = ["b"; "c"] ∧ r_lrange ["a"; "b"; "c"; "d"] (-3) (-2) = ["b"; "c"].
Proof. vm_compute. done. Qed.

Example C04_example :
  responses Debug demo_sched "q" (redis_h demo_clock) (sys_init rworld_empty)
    ([EvStart; ev_run (demo_job "a" 1); EvTick] ++ demo_polls 0 (demo_ok 2) ++ [EvRetry "a"; EvRetry "b"]) =
  [RNone; RUnit (Ok tt); RNone; RNone; RNone; RNone; RNone; RBool (Ok true); RBool (Ok false)].
Proof. vm_compute. reflexivity. Qed.

(** C05. *)
Theorem C05_keys_distinct n1 s1 n2 s2 :
  format_queue_name n1 s1 = format_queue_name n2 s2 → n1 = n2 ∧ s1 = s2.
Proof. exact (queue_key_inj n1 s1 n2 s2). Qed.
Print Assumptions C05_keys_distinct.
Theorem C05_keys_not_storage n s : format_queue_name n s ≠ STORAGE_HASH.
Proof. exact (queue_key_not_storage n s). Qed.
Print Assumptions C05_keys_not_storage.
Example C05_example : format_queue_name "print:queue:Queued" Queued = "print:queue:Queued:queue:Queued".
Proof. reflexivity. Qed.
