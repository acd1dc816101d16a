(** Theorems about processes that die in the middle of their steps. *)
From Verif Require Import SpecSoft SoftSteps CancelCut Demo.

Section soft.
  Context {M : Type} `{SM : Serde M} {SO : SerdeOk M}.
  Context (prof : nat → profile).
  Context (sched : nat → string → option (time → option time)).
  Context (name : string).
  Context (clock : nat → nat → time).
  Notation after n es := (fleet_after prof sched name clock n es).

  (** C123: any number of processes whose steps take turns, dying at any point of ticks, task steps,
      retries and starts. *)
  Theorem C123_no_overlap n es :
    ok_soft prof sched name clock (fleet_init n) es → NoDup (map tid (all_tasks (after n es))).
  Proof. exact (soft_no_overlap prof sched name clock n es). Qed.
  (** What is executed is stored as running, is in the processing list and does not wait at the same time. *)
  Theorem C123_tasks n es t :
    ok_soft prof sched name clock (fleet_init n) es → t ∈ all_tasks (after n es) →
    tid t ∉ qlist name (f_world (after n es)) Queued ∧
    tid t ∈ qlist name (f_world (after n es)) Running ∧
    ∃ j : job M, stored (f_world (after n es)) (tid t) = Some j ∧ jstatus (ctx j) = Running.
  Proof. exact (soft_tasks prof sched name clock n es t). Qed.
  (** Nothing waits twice, and what waits is stored and not done. *)
  Theorem C123_waiting n es :
    ok_soft prof sched name clock (fleet_init n) es →
    NoDup (qlist name (f_world (after n es)) Queued) ∧
    ∀ id, id ∈ qlist name (f_world (after n es)) Queued →
    ∃ j : job M, stored (f_world (after n es)) id = Some j ∧
      (jstatus (ctx j) = Queued ∨ jstatus (ctx j) = Running).
  Proof. exact (soft_waiting prof sched name clock n es). Qed.
  (** The tasks of all processes together respect the largest limit. *)
  Theorem C123_limit L n es :
    ok_soft prof sched name clock (fleet_init n) es → limits_within L es →
    (length (all_tasks (after n es)) <= length (qlist name (f_world (after n es)) Running) <= L)%nat.
  Proof. exact (soft_limit prof sched name clock L n es). Qed.
  (** The same on one Redis. *)
  Theorem C123_redis n (es : list (nat * event M)) :
    rf_soft prof sched name clock n es → NoDup (map tid (rf_tasks (rf_after prof sched name clock n es))).
  Proof. exact (rf_soft_no_overlap prof sched name clock n es). Qed.
  Theorem C123_redis_limit L n (es : list (nat * event M)) :
    rf_soft prof sched name clock n es → limits_within L es →
    let f := rf_after prof sched name clock n es in
    (length (rf_tasks f) <= length (r_list name (rf_world f) Running) <= L)%nat.
  Proof. exact (rf_soft_limit prof sched name clock L n es). Qed.
End soft.
Print Assumptions C123_limit.
Print Assumptions C123_redis_limit.
Print Assumptions C123_redis.
Print Assumptions C123_no_overlap.
Print Assumptions C123_tasks.
Print Assumptions C123_waiting.

Definition so_clock (i k : nat) : time := demo_clock (k + 100 * i).
Definition so_after (es : list (nat * event Z)) : fleet Z :=
  fleet_after (λ _, Debug) (λ _, demo_sched) "q" so_clock 2 es.
(** The first process dies in a tick that has stored "a" as running and not moved it yet; the second
    takes "a" up and "b" with it, and dies when "a" is half finished. *)
Definition so_es1 : list (nat * event Z) :=
  [(0, EvStart); (1, EvStart); (0, EvEnqueue (demo_job "a" 1) new_re_run);
   (0, EvEnqueue (demo_job "b" 1) new_re_run); (0, EvCrashIn EvTick 8)]%nat.
Definition so_es2 : list (nat * event Z) :=
  (so_es1 ++ [(1, EvTick); (0, EvStart); (0, EvTick)])%nat.
Definition so_es3 : list (nat * event Z) :=
  (so_es2 ++ [(1, EvTask 0 (demo_ok 2)); (1, EvTask 0 (demo_ok 2)); (1, EvTask 0 (demo_ok 2));
              (1, EvCrashIn (EvTask 0 (demo_ok 2)) 2); (0, EvRetry "a"); (0, EvTick)])%nat.
Example C123_case :
  ok_soft (λ _, Debug) (λ _, demo_sched) "q" so_clock (fleet_init 2) so_es3 ∧
  (qlist "q" (f_world (so_after so_es1)) Queued, jstatus ∘ ctx <$> stored (M := Z) (f_world (so_after so_es1)) "a",
   map tid (all_tasks (so_after so_es1))) = (["b"; "a"], Some Running, []) ∧
  map (map tid) (map m_tasks (f_members (so_after so_es2))) = [[]; ["a"; "b"]] ∧
  map (map tid) (map m_tasks (f_members (so_after so_es3))) = [[]; []] ∧
  map (λ s, qlist "q" (f_world (so_after so_es3)) s) [Queued; Running] = [[]; ["b"]] ∧
  (jstatus ∘ ctx <$> stored (M := Z) (f_world (so_after so_es3)) "a") = Some Running.
Proof.
  split. { repeat (split; [first [exact Logic.I|by left]|]). exact Logic.I. }
  by vm_compute.
Qed.

(** The first process dies in a tick that has moved "a", whose slot stays taken. *)
Definition so_es4 : list (nat * event Z) :=
  [(0, EvStart); (1, EvStart); (0, EvConfig (WqConfig (process_tick_duration wq_config_default) 1)); (1, EvConfig (WqConfig (process_tick_duration wq_config_default) 21));
   (0, EvEnqueue (demo_job "a" 1) new_re_run);
   (0, EvEnqueue (demo_job "b" 1) new_re_run); (0, EvCrashIn EvTick 9); (1, EvTick)]%nat.
Example C123_limit_case :
  ok_soft (λ _, Debug) (λ _, demo_sched) "q" so_clock (fleet_init 2) so_es4 ∧ limits_within 21 so_es4 ∧
  map tid (all_tasks (so_after so_es4)) = ["b"] ∧ qlist "q" (f_world (so_after so_es4)) Running = ["b"; "a"].
Proof.
  split. { repeat (split; [first [exact Logic.I|by left]|]). exact Logic.I. }
  split; [|by vm_compute]. split; [lia|]. intros i c. unfold so_es4. rewrite !elem_of_cons, elem_of_nil.
  intros H. repeat (destruct H as [H|H]; [first [discriminate H|injection H as _ ->; cbn; lia]|]). done.
Qed.
Definition so_redis (es : list (nat * event Z)) : rfleet Z :=
  rf_after (λ _, Debug) (λ _, demo_sched) "q" so_clock 2 es.
Example C123_redis_case :
  rf_soft (λ _, Debug) (λ _, demo_sched) "q" so_clock 2 so_es3 ∧
  map (map tid) (map m_tasks (rf_members (so_redis so_es2))) = [[]; ["a"; "b"]].
Proof.
  split; [|by vm_compute]. intros k ie Hk.
  assert (HF : Forall (λ ie : nat * event Z, match ie.2 with
    | EvEnqueue j _ => jstatus (ctx j) = Queued | EvCrashIn (EvEnqueue _ _) _ | EvCrashIn (EvCancel _) _ => False
    | _ => True end) so_es3) by repeat constructor.
  pose proof (Forall_lookup_1 _ _ _ _ HF Hk) as H.
  destruct ie as [i e]. cbn in *. destruct e; try done. by left.
Qed.

(** Deaths inside a cancellation are left out for a reason: the job is stored as canceled before its id
    is taken out of the waiting list.  Whoever submits it again in between puts it there twice, and the
    next two ticks start it twice.  (For submissions see C39.) *)
Definition so_cancel : list (nat * event Z) :=
  [(0, EvStart); (1, EvStart); (0, EvEnqueue (demo_job "a" 1) new_re_run);
   (0, EvCrashIn (EvCancel "a") 3); (1, EvEnqueue (demo_job "a" 1) new_re_run);
   (1, EvTick); (1, EvTick)]%nat.
Theorem C123_cancel_refuted :
  map tid (all_tasks (so_after so_cancel)) = ["a"; "a"].
Proof. by vm_compute. Qed.
Section cancel.
  Context {M : Type} `{SM : Serde M} {SO : SerdeOk M}.
  Context (prof : profile).
  Context (sched : string → option (time → option time)).
  Context (name : string).
  Context (clock : nat → time).
  Notation step := (sys_step prof sched name (mem_h clock)).

  (** In general: where the process dies inside the cancellation of a waiting job decides.  After three or
      four effects (read, clock, write, message) the job is stored as canceled and still waits. *)
  Theorem C123_cancel_points (s : sys world M) id j n :
    alive s = true → stored (sw s) id = Some j → jid j = id → jstatus (ctx j) = Queued →
    let w := sw (step s (EvCrashIn (EvCancel id) n)).1 in
    ((n <= 2)%nat → (∀ x, qlist name w x = qlist name (sw s) x) ∧ ∀ k, stored (M := M) w k = stored (sw s) k) ∧
    ((3 <= n <= 4)%nat →
       (∀ x, qlist name w x = qlist name (sw s) x) ∧
       ∃ j' : job M, stored w id = Some j' ∧ jstatus (ctx j') = Canceled) ∧
    ((5 <= n)%nat →
       id ∉ qlist name w Queued ∧ ∃ j' : job M, stored w id = Some j' ∧ jstatus (ctx j') = Canceled).
  Proof. exact (crash_in_cancel prof sched name clock s id j n). Qed.
  (** Submitting such a job again puts it into the waiting list once more. *)
  Theorem C123_rerun_duplicates (s : sys world M) (j ex : job M) :
    alive s = true → stored (sw s) (jid j) = Some ex → jstatus (ctx ex) = Canceled →
    jid j ∈ qlist name (sw s) Queued →
    qlist name (sw (step s (EvEnqueue j new_re_run)).1) Queued = jid j :: qlist name (sw s) Queued.
  Proof. exact (rerun_duplicates prof sched name clock s j ex). Qed.
End cancel.
Print Assumptions C123_cancel_points.
Print Assumptions C123_rerun_duplicates.
Example C123_cancel_case :
  let s := seen_by (so_after (take 3 so_cancel)) (default (Member wq_config_default [] false) (f_members (so_after (take 3 so_cancel)) !! 0%nat)) in
  let s' := seen_by (so_after (take 4 so_cancel)) (default (Member wq_config_default [] false) (f_members (so_after (take 4 so_cancel)) !! 1%nat)) in
  (alive s, jid <$> stored (M := Z) (sw s) "a", jstatus ∘ ctx <$> stored (M := Z) (sw s) "a") = (true, Some "a", Some Queued) ∧
  (alive s', jstatus ∘ ctx <$> stored (M := Z) (sw s') "a", qlist "q" (sw s') Queued) = (true, Some Canceled, ["a"]).
Proof. by vm_compute. Qed.
Theorem C123_submission_refuted :
  let es := [(0, EvStart); (1, EvStart); (0, EvCrashIn (EvEnqueue (demo_job "a" 1) new_re_run) 2);
             (1, EvEnqueue (demo_job "a" 1) new_re_run); (0, EvStart); (1, EvTick)]%nat in
  map (map tid) (map m_tasks (f_members (so_after es))) = [["a"]; ["a"]].
Proof. by vm_compute. Qed.
Print Assumptions C123_cancel_refuted.
Print Assumptions C123_submission_refuted.
