(** Processes whose steps overlap, call by call, with failing calls and deaths anywhere. *)
From Verif Require Import Spec SpecValue SpecRace SpecWorkers RaceProps RaceList RaceSim RaceBack RaceTick RaceLoop RaceCases RaceFacts Demo.

Section theorems.
  Context {M : Type} `{SM : Serde M} {SO : SerdeOk M}.
  (** Any number of processes, of different builds, with clocks and queue names of their own. *)
  Context (prof : nat → profile).
  Context (sched : nat → string → option (time → option time)).
  Context (name : nat → string).
  Context (clock : nat → nat → time).
  Notation race_after := (race_after prof sched name clock).
  Notation ralong := (ralong prof sched name clock).
  Implicit Types xs ys : list (race_event M).

  (** C81: what is stored, executed and answered was submitted or left by user code under the same id. *)
  Theorem C81_payload (P : string → M → Prop) n xs :
    ralong (payload_race P) (race_init world_empty n) xs →
    let r := race_after n xs in
    (∀ id (j : job M), stored (r_world r) id = Some j → jid j = id ∧ P id (data j)) ∧
    (∀ i j, (i, j) ∈ r_runs r → P (jid j) (data j)) ∧
    (∀ i id j, (i, EvGet id, RJob (Some j)) ∈ r_answers r → jid j = id ∧ P id (data j)).
  Proof. exact (race_payload prof sched name clock P n xs). Qed.

  (** C81: ids of which every submission is unreadable are never found and never executed. *)
  Theorem C81_never_runs id n xs :
    Forall (λ x, match begun x with Some (EvEnqueue j _) => jid j = id → unreadable (data j) | _ => True end) xs →
    let r := race_after n xs in
    stored (M := M) (r_world r) id = None ∧ (∀ i j, (i, j) ∈ r_runs r → jid j ≠ id).
  Proof. exact (race_never_runs prof sched name clock id n xs). Qed.

  (** C81: id, creation time, type and retry policy come from one submission, if [retry_at] is not
      overridden. *)
  Theorem C81_origin n xs :
    Forall (λ x, match begun x with Some e => default_retry e | None => True end) xs →
    let r := race_after n xs in
    (∀ id (j : job M), stored (r_world r) id = Some j →
       jid j = id ∧ ∃ j0, submitted_to xs j0 ∧ derived j0 j) ∧
    (∀ i j, (i, j) ∈ r_runs r → ∃ j0, submitted_to xs j0 ∧ derived j0 j) ∧
    (∀ i id j, (i, EvGet id, RJob (Some j)) ∈ r_answers r →
       jid j = id ∧ ∃ j0, submitted_to xs j0 ∧ derived j0 j).
  Proof. exact (race_origin prof sched name clock n xs). Qed.

  (** C82: retry counters stay within their limits. *)
  Theorem C82_retry_limit n xs :
    Forall (λ x, match begun x with
                 | Some e => default_retry e ∧ match e with EvEnqueue j _ => in_limit j | _ => True end
                 | None => True end) xs →
    let r := race_after n xs in
    (∀ id (j : job M), stored (r_world r) id = Some j → in_limit j) ∧
    (∀ i j, (i, j) ∈ r_runs r → in_limit j).
  Proof. exact (race_limits prof sched name clock n xs). Qed.

  (** C82: no execution is picked before it is due, by the clock of its process. *)
  Theorem C82_due n xs :
    let r := race_after n xs in
    ∀ i j, (i, j) ∈ r_runs r → jstatus (ctx j) = Running ∧ picked_by clock r i j.
  Proof. exact (race_due prof sched name clock n xs). Qed.

  (** C82: with one clock that does not go backwards, time stamps are ordered. *)
  Theorem C82_stamps (clk : nat → time) n xs :
    (∀ k k', (k <= k')%nat → clk k <= clk k') →
    SpecRace.ralong prof sched name (λ _, clk) (stamped_race clk) (race_init world_empty n) xs →
    let r := SpecRace.race_after prof sched name (λ _, clk) n xs in
    let now := ms_of (clk (reads (r_world r))) in
    (∀ id (j : job M), stored (r_world r) id = Some j → stamps now j) ∧
    (∀ i j, (i, j) ∈ r_runs r → stamps now j).
  Proof. intros H. exact (race_stamps prof sched name clk H n xs). Qed.

  (** C83: after the answer Ok to a submission, the id is in the waiting or processing list and has a
      record, until an execution of it ends or somebody cancels or retries it. *)
  Theorem C83_submission_kept q id n xs i j c :
    ralong (untouched name q id) (race_init world_empty n) xs →
    let r := race_after n xs in
    jid j = id → (i, EvEnqueue j c, RUnit (Ok tt)) ∈ r_answers r →
    listed q (r_world r) id ∧ recorded (r_world r) id.
  Proof. exact (race_listed q id prof sched name clock n xs i j c). Qed.

  (** Which races these are: with Redis as backend the same ones, also in the lists and records, ... *)
  Theorem C81_on_redis n xs :
    let r := race_after n xs in
    let r' := race_run prof sched name (λ i, redis_h (clock i)) (race_init rworld_empty n) xs in
    (r_procs r' = r_procs r ∧ r_runs r' = r_runs r ∧ r_answers r' = r_answers r) ∧
    (∀ q s, rlist (keys (r_world r')) (format_queue_name q s) = Some (qlist q (r_world r) s)) ∧
    (∀ id c, (redis_h c _ (SGet STORAGE_HASH id) (r_world r')).2 = (mem_h c _ (SGet STORAGE_HASH id) (r_world r)).2).
  Proof. exact (race_redis prof sched name clock n xs). Qed.

  (** ... among them all histories of one process with failing calls and crashes, ... *)
  Theorem C81_one_process q faults (es : list (event M)) :
    ∃ xs,
      let s := fafter (prof 0%nat) (sched 0%nat) q (clock 0%nat) faults es in
      let r := SpecRace.race_after prof sched (λ _, q) clock 1 xs in
      r_world r = fw (sw s) ∧ r_procs r = [Proc (cfg s) (tasks s) (alive s) None] ∧
      map snd (r_runs r) = runs s.
  Proof. exact (race_one prof sched clock q faults es). Qed.

  (** ... (a race of one process is nothing else, if the picking loop has the bound of Queue.v on its
      rounds), ... *)
  Theorem C81_only_one_process xs :
    Forall (λ x, match x with RBegin _ _ fuel => fuel = 0%nat | _ => True end) xs →
    let r := race_after 1 xs in
    idle r 0 →
    ∃ faults es,
      let s := fafter (prof 0%nat) (sched 0%nat) (name 0%nat) (clock 0%nat) faults es in
      r_world r = fw (sw s) ∧ r_procs r = [Proc (cfg s) (tasks s) (alive s) None] ∧
      map snd (r_runs r) = runs s.
  Proof. exact (race_only prof sched name clock xs). Qed.

  (** ... and all of processes that take turns. *)
  Theorem C81_taking_turns q n (es : list (nat * event M)) :
    ∃ xs,
      let f := fleet_after prof sched q clock n es in
      let r := SpecRace.race_after prof sched (λ _, q) clock n xs in
      r_world r = f_world f ∧
      r_procs r = map (λ m, Proc (m_cfg m) (m_tasks m) (m_alive m) None) (f_members f) ∧
      map snd (r_runs r) = f_runs f.
  Proof. exact (race_fleet prof sched clock q n es). Qed.

  (** C84: bounds on the rounds of the picking loop, once larger than the number of events, have no effect. *)
  Theorem C84_bound_immaterial n xs ys :
    Forall2 same_but_fuel xs ys →
    Forall (fuel_at_least (length xs)) xs → Forall (fuel_at_least (length xs)) ys →
    let r := race_after n xs in
    let r' := race_after n ys in
    r_world r = r_world r' ∧ r_runs r = r_runs r' ∧ r_answers r = r_answers r' ∧
    map shown (r_procs r) = map shown (r_procs r').
  Proof. exact (race_fuel prof sched name clock n xs ys). Qed.

  (** C84: the loop of process i ends within one round more than it counted ids, if no other process
      takes ids from its waiting list: the bound is never used up, however small the extra [fuel]. *)
  Theorem C84_tick_ends_partial i n xs :
    Forall (spares name i) xs → ¬ exhausted (race_after n xs) i.
  Proof. exact (race_never_exhausted prof sched name clock i n xs). Qed.
  (** In an endless race, a process that gets its turn again and again ends every such step. *)
  Theorem C84_steps_end_partial i n (s : nat → race_event M) :
    (i < n)%nat → (∀ a, ∃ b, (a <= b)%nat ∧ ∃ f, s b = RCall i f) → (∀ a, spares name i (s a)) →
    (∀ a, ∃ b, (a <= b)%nat ∧ idle (race_after n (up_to s b)) i) ∧
    (∀ a, ¬ exhausted (race_after n (up_to s a)) i).
  Proof. exact (race_steps_end_all prof sched name clock i n s). Qed.
End theorems.
Print Assumptions C81_payload.
Print Assumptions C81_never_runs.
Print Assumptions C81_origin.
Print Assumptions C82_retry_limit.
Print Assumptions C82_due.
Print Assumptions C82_stamps.
Print Assumptions C83_submission_kept.
Print Assumptions C81_on_redis.
Print Assumptions C81_one_process.
Print Assumptions C81_only_one_process.
Print Assumptions C81_taking_turns.
Print Assumptions C84_bound_immaterial.
Print Assumptions C84_tick_ends_partial.
Print Assumptions C84_steps_end_partial.

(** C84 is false if two workers share a queue.  Process 0 counts one waiting id; process 1 picks it;
    from then on process 0 finds nothing, its cursor stays at 1, and it reads the empty list for ever.
    No call fails and nobody dies. *)
Theorem C84_tick_ends_refuted :
  ∃ xs : nat → list (race_event Z),
    (∀ fuel, Forall (λ x, match x with RCall _ f => f = FOk | RDie _ => False | RBegin _ _ _ => True end) (xs fuel)) ∧
    (∀ fuel fuel', Forall2 same_but_fuel (xs fuel) (xs fuel')) ∧
    ∀ n fuel, (n <= fuel)%nat →
      let r := two_after 2 (xs fuel ++ repeat (RCall 0 FOk) n) in
      qlist "q" (r_world r) Queued = [] ∧ ¬ idle r 0 ∧ ¬ exhausted r 0.
Proof. exact (ex_intro _ spin spin_for_ever). Qed.
Print Assumptions C84_tick_ends_refuted.

(** *** Examples *)
(** Two workers of one queue, each submitting a job at the same time; both pick both jobs; both execute
    "a", which fails; in the end the first loses an answer and the second dies in the middle of a step. *)
Definition both (n : nat) : list (race_event Z) := concat (repeat [RCall 0 FOk; RCall 1 FOk] n).
Definition pr_job (id : string) (d : Z) : job Z :=
  job_set_retry (demo_job id d) (Retry 0 (Some 2) (Interval 1000000)).
Definition pr_sub : list (race_event Z) :=
  RBegin 0 EvStart 0 :: go 0 9 ++ RBegin 1 EvStart 0 :: go 1 9
  ++ [RBegin 0 (EvEnqueue (pr_job "a" 1) new_re_run) 0; RBegin 1 (EvEnqueue (pr_job "b" 2) new_re_run) 0]
  ++ both 9.
Definition pr_pick : list (race_event Z) :=
  pr_sub ++ [RBegin 0 EvTick 3; RBegin 1 EvTick 5] ++ both 20.
Definition poll (i : nat) (u : user_result Z) : list (race_event Z) := RBegin i (EvTask 0 u) 0 :: go i 9.
Definition pr_tail : list (race_event Z) :=
  poll 0 (demo_fail 3) ++ poll 1 (demo_fail 4) ++ poll 0 (demo_fail 3) ++ poll 1 (demo_fail 4)
  ++ RBegin 1 (EvGet "a") 0 :: go 1 5 ++ poll 0 (demo_fail 3) ++ poll 1 (demo_fail 4).
Definition pr_end : list (race_event Z) :=
  [RBegin 0 (EvTask 0 (demo_fail 3)) 0; RBegin 1 (EvTask 0 (demo_fail 4)) 0; RCall 0 FOk; RCall 1 FOk;
   RCall 0 FAfter] ++ both 3 ++ RDie 1 :: go 0 9.
Definition pr_xs : list (race_event Z) := pr_pick ++ pr_tail ++ pr_end.
Definition pr_init : race Z world := race_init world_empty 2.
Notation pr_along := (ralong (λ _, Debug) (λ _, demo_sched) (λ _, "q"%string) (λ _, demo_clock)).

Example C81_case :
  let r := two_after 2 pr_xs in
  pr_along (payload_race (λ _ d, 1 <= d <= 4)) pr_init pr_xs ∧
  Forall (λ x, match begun x with
               | Some e => default_retry e ∧ match e with EvEnqueue j _ => in_limit j | _ => True end
               | None => True end) pr_xs ∧
  map (λ x : nat * job Z, (x.1, jid x.2, data x.2)) (r_runs r) = [(0%nat, "a", 1); (1%nat, "a", 1)] ∧
  map (λ j : job Z, (jid j, data j, jtype (ctx j), retried_times <$> jretry (ctx j)))
    (omap (λ k, stored (r_world r) k) ["a"; "b"]) =
    [("a", 4, ScheduledAt 12000000, Some 1); ("b", 2, Normal, Some 0)] ∧
  map (λ p, (p_alive p, map (λ t, jid (t_job t)) (p_tasks p))) (r_procs r) = [(true, ["b"]); (false, [])].
Proof.
  cbv zeta. split; [|split; [|split; [by vm_compute|split; by vm_compute]]].
  - apply (ralong_forall _ _ _ _ (λ x, match begun x with
      | Some (EvEnqueue j _) => 1 <= data j <= 4 | Some (EvTask _ u) => 1 <= ur_data u <= 4 | _ => True end)).
    + intros r [i e m| |] Hx; [destruct e|..]; cbn in *; auto.
    + unfold pr_xs, pr_pick, pr_sub, pr_tail, pr_end, poll, go, both. cbn [app repeat concat].
      repeat (apply List.Forall_cons; [first [exact Logic.I|cbn; lia]|]). constructor.
  - unfold pr_xs, pr_pick, pr_sub, pr_tail, pr_end, poll, go, both. cbn [app repeat concat].
    assert (∀ id d, in_limit (pr_job id d)) as Hl.
    { intros id d r [= <-]. split; [done|]. by intros m [= <-]. }
    repeat (apply List.Forall_cons; [first [exact Logic.I|split; [try done; by eexists|try done; apply Hl]]|]).
    constructor.
Qed.
(** One process that dies in the middle of a tick, gets messages while dead, and starts again. *)
Example C81_case_one :
  let xs := RBegin 0 EvStart 0 :: go 0 9 ++ RBegin 0 (EvEnqueue (pr_job "a" 1) new_re_run) 0 :: go 0 9
    ++ RBegin 0 EvTick 0 :: go 0 7 ++ [RDie 0; RBegin 0 EvTick 0; RCall 0 FOk; RBegin 0 EvStart 0; RCall 0 FOk; RCall 0 FAfter]
    ++ go 0 9 in
  let r := two_after 1 xs in
  Forall (λ x, match x with RBegin _ _ fuel => fuel = 0%nat | _ => True end) xs ∧
  idle r 0 ∧ map p_alive (r_procs r) = [true] ∧ qlist "q" (r_world r) Queued = ["a"].
Proof.
  cbv zeta. split; [|split; [|split; by vm_compute]].
  - unfold go. cbn [app repeat]. repeat (apply List.Forall_cons; [done|]). constructor.
  - eexists. split; by vm_compute.
Qed.
Example C82_case :
  let r := two_after 2 pr_xs in
  map (λ x : nat * job Z, (x.1, run_at (ctx x.2), jstatus (ctx x.2))) (r_runs r) =
    [(0%nat, Some 4, Running); (1%nat, Some 5, Running)] ∧
  reads (r_world r) = 14%nat.
Proof. cbv zeta. split; by vm_compute. Qed.
Example C82_stamps_case :
  (∀ k k', (k <= k')%nat → demo_clock k <= demo_clock k') ∧
  pr_along (stamped_race demo_clock) pr_init pr_xs ∧
  map (λ j : job Z, (created_at (ctx j), enqueue_at (ctx j), run_at (ctx j)))
    (omap (λ k, stored (r_world (two_after 2 pr_xs)) k) ["a"; "b"]) =
    [(0, Some 13, Some 5); (0, Some 1, Some 9)].
Proof.
  split; [unfold demo_clock; lia|]. split; [|by vm_compute].
  apply (ralong_forall _ _ _ _ (λ x, match begun x with
    | Some (EvEnqueue j _) => ∀ now, 0 <= now → stamps now j | _ => True end)).
  - intros r [i e m| |] Hx; [destruct e|..]; cbn in *; auto. apply Hx. unfold ms_of, demo_clock. apply Z.div_pos; lia.
  - unfold pr_xs, pr_pick, pr_sub, pr_tail, pr_end, poll, go, both. cbn [app repeat concat].
    repeat (apply List.Forall_cons; [first [exact Logic.I|intros now Hn; repeat split; try done]|]). constructor.
Qed.
(** "b" is acknowledged; then the process that took it dies, and the other one's calls fail. *)
Definition pr_lost : list (race_event Z) :=
  pr_pick ++ RDie 1 :: RBegin 0 EvTick 0 :: repeat (RCall 0 FBefore) 9.
Example C83_case :
  let r := two_after 2 pr_lost in
  pr_along (untouched (λ _, "q"%string) "q" "b") pr_init pr_lost ∧
  (1%nat, EvEnqueue (pr_job "b" 2) new_re_run, RUnit (Ok tt)) ∈ r_answers r ∧
  qlist "q" (r_world r) Running = ["b"; "a"] ∧ map p_alive (r_procs r) = [true; false].
Proof.
  cbv zeta. split; [|split; [|split; by vm_compute]].
  - apply (ralong_forall _ _ _ _ (λ x, match begun x with
      | Some (EvCancel _ | EvRetry _ | EvTask _ _) => False | _ => True end)).
    + intros r [i e m| |] Hx; [destruct e|..]; cbn in *; auto.
    + unfold pr_lost, pr_pick, pr_sub, go, both. cbn [app repeat concat].
      repeat (apply List.Forall_cons; [done|]). constructor.
  - vm_compute. do 3 right. by left.
Qed.
(** A worker ticks while a client submits and retries. *)
Definition pr_client : list (race_event Z) :=
  RBegin 0 EvStart 0 :: go 0 9 ++ RBegin 1 EvStart 0 :: go 1 9
  ++ [RBegin 1 (EvEnqueue (pr_job "a" 1) new_re_run) 0] ++ go 1 9
  ++ [RBegin 0 EvTick 0; RBegin 1 (EvEnqueue (pr_job "b" 2) new_re_run) 0] ++ both 9.
Example C84_ends_case :
  Forall (spares (λ i, if (i =? 0)%nat then "q" else "r")%string 0) pr_client ∧
  Forall (spares (λ _, "q"%string) 0) (drop 20 pr_client) ∧
  idle (two_after 2 (pr_client ++ go 0 9)) 0 ∧ ¬ idle (two_after 2 pr_client) 0.
Proof.
  split; [|split; [|split]].
  - unfold pr_client, go, both. cbn [app repeat concat].
    repeat (apply List.Forall_cons; [first [done|by left|right; left; done]|]). constructor.
  - unfold pr_client, go, both. cbn [app repeat concat drop].
    repeat (apply List.Forall_cons; [first [done|by left|right; by right]|]). constructor.
  - eexists. split; by vm_compute.
  - apply not_idle. by vm_compute.
Qed.
Example C84_endless_case :
  let s n := if (n =? 0)%nat then RBegin 0 EvStart 0 else RCall (M := Z) 0 FOk in
  (∀ a, ∃ b, (a <= b)%nat ∧ ∃ f, s b = RCall 0 f) ∧ (∀ a, spares (λ _, "q"%string) 0 (s a)) ∧
  idle (two_after 2 (up_to s 0)) 0 ∧ ¬ idle (two_after 2 (up_to s 2)) 0 ∧ idle (two_after 2 (up_to s 9)) 0.
Proof.
  cbv zeta. split; [|split; [|split; [|split]]].
  - intros a. exists (S a). split; [lia|]. by exists FOk.
  - intros [|a]; cbn; auto.
  - eexists. split; by vm_compute.
  - apply not_idle. by vm_compute.
  - eexists. split; by vm_compute.
Qed.
(** Other bounds, the same race. *)
Example C84_bound_case :
  let with_fuel n := map (λ x : race_event Z, match x with RBegin i e _ => RBegin i e n | _ => x end) pr_xs in
  Forall2 same_but_fuel (with_fuel (length pr_xs)) (with_fuel (7 + length pr_xs))%nat ∧
  Forall (fuel_at_least (length pr_xs)) (with_fuel (length pr_xs)).
Proof.
  cbv zeta. split.
  - generalize (7 + length pr_xs)%nat. generalize (length pr_xs). generalize pr_xs. intros l a b. induction l as [|[] l IH]; constructor; done.
  - generalize (length pr_xs). generalize pr_xs. intros l a. induction l as [|[] l IH]; constructor; cbn; first [done|lia].
Qed.
