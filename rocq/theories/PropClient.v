(** Callers of the API in front of a queue. *)
From Verif Require Import SpecClient ClientFacts ClientProgress Demo.

Section theorems.
  Context {M : Type} `{SM : Serde M}.
  Context (prof : profile).
  Context (sched : string → option (time → option time)).
  Context (name : string).

  Section any_backend.
  Context {W : Type} (h : handler W).
  Notation step := (sys_step prof sched name h).
  Notation go := (sys_run prof sched name h).
  Notation fstep := (fstep prof sched name h).
  Notation frun := (front_run prof sched name h).
  Implicit Types f : front M W.

  (** C62.  Any number of calls on their way at the same time, on any backend, with crashes: what
      happened to the queue is a sequential history of its own steps and of the calls' messages, and
      every answer of the queue is the answer of that step in that history; *)
  Theorem C62_history w fs :
    let f := frun (front_init w) fs in
    let es := map (λ x, x.1.2) (trace f) in
    q f = go (sys_init w) es ∧
    ∀ k o e r, trace f !! k = Some (o, e, r) → r = (step (go (sys_init w) (take k es)) e).2.
  Proof. exact (hist_after prof sched name h w fs). Qed.
  (** every step in it belongs to a call or is the queue's own, and the process dies inside such steps only; *)
  Theorem C62_no_other_steps w fs k o e r :
    let f := frun (front_init w) fs in
    trace f !! k = Some (o, e, r) →
    match o with Some i => is_Some (cs f !! i) | None => by_itself (c_call <$> cs f) e end.
  Proof. exact (own_steps prof sched name h w fs k o e r). Qed.
  (** each call has at most the one step (update_job: two) that it asks for, made between the call and
      the return, and returns that step's answer, or an error and did not reach a living queue; *)
  Theorem C62_answers w fs i c :
    let f := frun (front_init w) fs in
    cs f !! i = Some c →
    fits (c_call c) (c_from c) (steps_of i (trace f)) ∧
    ∀ r to, c_at c = Returned r to →
      explained (c_call c) (c_from c) to r (steps_of i (trace f)) ∧ (to <= length (trace f))%nat.
  Proof. exact (calls_explained prof sched name h w fs i c). Qed.
  (** so a call made after another one returned comes later in the history; *)
  Theorem C62_real_time w fs i1 i2 c1 c2 r1 to1 k1 e1 x1 k2 e2 x2 :
    let f := frun (front_init w) fs in
    cs f !! i1 = Some c1 → cs f !! i2 = Some c2 →
    c_at c1 = Returned r1 to1 → (to1 <= c_from c2)%nat →
    trace f !! k1 = Some (Some i1, e1, x1) → trace f !! k2 = Some (Some i2, e2, x2) → (k1 < k2)%nat.
  Proof. exact (calls_in_order prof sched name h w fs i1 i2 c1 c2 r1 to1 k1 e1 x1 k2 e2 x2). Qed.
  (** and every call can always be brought to its end by letting threads go on and actors read their
      mailboxes: no tick, no task and no other call is needed. *)
  Theorem C62_no_deadlock w fs i c :
    cs (frun (front_init w) fs) !! i = Some c →
    ∃ fs' c', Forall serves fs' ∧ cs (frun (front_init w) (fs ++ fs')) !! i = Some c' ∧
      (c_at c' = Gone ∨ ∃ r to, c_at c' = Returned r to).
  Proof. exact (answered prof sched name h w fs i c). Qed.

  (** C63.  Before the queue is registered, calls other than submissions are refused without a trace:
      update_job with Ok. *)
  Theorem C63_refused f i c :
    cs f !! i = Some c → c_at c = AtLookup → c_upd c = None → known f = false →
    submits_call (c_call c) = false →
    fstep f (FGo i) = set_cs f (<[i := goto c (Returned (match c_call c with
                                                         | CGet _ => RJob None
                                                         | CUpdate _ _ _ => RUnit (Ok tt)
                                                         | CRetry _ => RBool (Err ENoQueueRegister)
                                                         | _ => RUnit (Err ENoQueueRegister)
                                                         end) (length (trace f)))]> (cs f)).
  Proof. exact (refused prof sched name h f i c). Qed.
  (** In a process that was just started, for the first time or again, nothing is read, written or executed
      until something is submitted. *)
  Theorem C63_idle_until_submission f fs :
    let f' := frun f fs in
    just_started prof sched name h f →
    (∀ c, FCall c ∈ fs → submits_call c = false) →
    sw (q f') = sw (q f) ∧ runs (q f') = runs (q f) ∧ alive (q f') = false ∧ known f' = false.
  Proof. exact (idle_until_submission prof sched name h f fs). Qed.
  (** The first submission starts the queue on what was there, and then is handled. *)
  Theorem C63_first_submission f j ec :
    just_started prof sched name h f →
    let i := length (cs f) in
    let s0 := (step (q f) EvStart).1 in
    let f' := frun f [FCall (CRun j ec); FGo i; FGo i; FAj; FGo i; FBegin; FHandle] in
    alive s0 = true →
    trace f' = trace f ++ [(None, EvStart, (step (q f) EvStart).2);
                           (Some i, EvEnqueue j ec, (step s0 (EvEnqueue j ec)).2)] ∧
    q f' = (step s0 (EvEnqueue j ec)).1.
  Proof. exact (first_run prof sched name h f j ec). Qed.
  (** ... by just_run too, in the mode re_run. *)
  Theorem C63_first_just_run f j :
    just_started prof sched name h f →
    let i := length (cs f) in
    let s0 := (step (q f) EvStart).1 in
    let f' := frun f [FCall (CJust j); FAj; FGo i; FGo i; FAj; FGo i; FBegin; FHandle] in
    alive s0 = true →
    trace f' = trace f ++ [(None, EvStart, (step (q f) EvStart).2);
                           (Some i, EvEnqueue j new_re_run, (step s0 (EvEnqueue j new_re_run)).2)] ∧
    q f' = (step s0 (EvEnqueue j new_re_run)).1.
  Proof. exact (first_just_run prof sched name h f j). Qed.
  (** The actor of AJ dies only of registering a queue that is registered already, of this job type or of
      another one. *)
  Theorem C62_aj_dies_only f fe :
    aj_up f = true → aj_up (fstep f fe) = false →
    (fe = FAj ∧ known f = true ∧ ∃ i box c, aj_box f = i :: box ∧ cs f !! i = Some c ∧ c_at c = InitSent) ∨
    fe = FAjGone.
  Proof. exact (aj_dies prof sched name h f fe). Qed.
  End any_backend.

  Context (clock : nat → time).
  Notation h := (mem_h clock).
  Notation step := (sys_step prof sched name h).
  Notation go := (sys_run prof sched name h).
  Notation frun := (front_run prof sched name h).

  (** C64.  If the job is stored as it was when update_job read it, update_job takes effect at one
      moment, between its call and its return.  Missing: when it is not, false (below). *)
  Theorem C64_update_atomic_partial w (fs : list (fevent M)) i c id d cx k1 j k2 e x :
    let f := frun (front_init w) fs in
    let at_ n := go (sys_init w) (take n (map (λ x, x.1.2) (trace f))) in
    cs f !! i = Some c → c_call c = CUpdate id d cx →
    steps_of i (trace f) = [(k1, EvGet id, RJob (Some j)); (k2, e, x)] →
    (step (at_ k2) (EvGet id)).2 = RJob (Some j) →
    update_job prof sched name h (at_ k2) id d cx = (at_ (S k2), x).
  Proof. exact (update_atomic prof sched name clock w fs i c id d cx k1 j k2 e x). Qed.
End theorems.
Print Assumptions C62_history.
Print Assumptions C62_no_other_steps.
Print Assumptions C62_answers.
Print Assumptions C62_real_time.
Print Assumptions C62_no_deadlock.
Print Assumptions C63_refused.
Print Assumptions C63_idle_until_submission.
Print Assumptions C63_first_submission.
Print Assumptions C63_first_just_run.
Print Assumptions C62_aj_dies_only.
Print Assumptions C64_update_atomic_partial.

Definition pc_run (fs : list (fevent Z)) : front Z world :=
  front_run Debug demo_sched "q" (mem_h demo_clock) (front_init (world_empty)) fs.
Definition pc_returned (f : front Z world) : list (option (response Z)) :=
  map (λ c, match c_at c with Returned r _ => Some r | _ => None end) (cs f).

(** Three threads: run() of "a", run() of "b" and cancel of "a", on their way at the same time.  "b"
    registers the queue; the cancellation overtakes the submission of "a" and finds nothing. *)
Definition pc_three : list (fevent Z) :=
  [FCall (CRun (demo_job "a" 1) new_re_run); FCall (CRun (demo_job "b" 2) new_re_run); FGo 1; FGo 1; FAj; FGo 1;
   FCall (CCancel "a"); FGo 2; FGo 2; FGo 0; FGo 0; FBegin; FHandle; FHandle; FHandle; FOwn EvTick;
   FCall (CGet "a"); FGo 3; FGo 3; FHandle]%nat.
Example C62_case :
  let f := pc_run pc_three in
  map (λ x, x.1.1) (trace f) = [None; Some 1; Some 2; Some 0; None; Some 3]%nat ∧
  map (λ r, match r with Some (RJob (Some j)) => jid j | Some (RUnit (Ok tt)) => "ok" | _ => "-" end) (pc_returned f)
    = ["ok"; "ok"; "ok"; "a"] ∧
  map (λ c, match c_at c with Returned _ n => (c_from c, n) | _ => (0, 0)%nat end) (cs f)
    = [(0, 4); (0, 2); (0, 3); (5, 6)]%nat.
Proof. cbv zeta. split; [by vm_compute|]. split; by vm_compute. Qed.
Example C62_deadlock_case :
  let f := pc_run (take 11 pc_three) in
  (c_at <$> cs f !! 0%nat) = Some MsgSent ∧
  (c_at <$> cs (pc_run (take 11 pc_three ++ [FBegin; FHandle; FHandle; FHandle])) !! 0%nat)
    = Some (Returned (RUnit (Ok tt)) 4).
Proof. cbv zeta. split; by vm_compute. Qed.

(** Deaths inside the start, a tick, and a message: each is a step of the history, the calls that wait
    return nothing, and the process begins again. *)
Example C62_crash_case :
  let before := [FCall (CRun (demo_job "a" 1) new_re_run); FGo 0; FGo 0; FAj; FGo 0]%nat in
  let died k := let f := pc_run (before ++ k) in
    (match list.last (trace f) with Some (_, EvCrashIn e n, _) => Some (e, n) | _ => None end,
     c_at <$> cs f !! 0%nat, (aj_up f, known f, begun f)) in
  map died [[FCrashIn (Some EvStart) 2]; [FBegin; FCrashIn (Some EvTick) 1]; [FBegin; FCrashIn None 3]]%nat =
    [(Some (EvStart, 2%nat), Some Gone, (true, false, false));
     (Some (EvTick, 1%nat), Some Gone, (true, false, false));
     (Some (EvEnqueue (demo_job "a" 1) new_re_run, 3%nat), Some Gone, (true, false, false))].
Proof. cbv zeta. by vm_compute. Qed.

(** C63: "jobs that wait when the process dies are executed after the restart" is false. "a" waits and is
    due; whatever the new process does, as long as nothing is submitted, "a" is not executed. *)
Definition pc_waiting : list (fevent Z) :=
  [FCall (CRun (demo_job "a" 1) new_re_run); FGo 0; FGo 0; FAj; FGo 0; FBegin; FHandle]%nat.
Lemma pc_idle fs1 fs2 :
  (∀ c, FCall c ∈ fs2 → submits_call c = false) →
  sw (q (pc_run (fs1 ++ [FCrash] ++ fs2))) = sw (q (pc_run (fs1 ++ [FCrash]))) ∧
  runs (q (pc_run (fs1 ++ [FCrash] ++ fs2))) = runs (q (pc_run (fs1 ++ [FCrash]))).
Proof.
  intros H. unfold pc_run.
  destruct (C63_idle_until_submission Debug demo_sched "q" (mem_h demo_clock)
    (front_run Debug demo_sched "q" (mem_h demo_clock) (front_init world_empty) (fs1 ++ [FCrash])) fs2) as (Hw & Hr & _).
  { right. eexists. unfold front_run. by rewrite fold_left_app. }
  { exact H. }
  rewrite app_assoc. unfold front_run in *. by rewrite (fold_left_app _ (fs1 ++ [FCrash]) fs2).
Qed.
Theorem C63_resumes_refuted :
  let f := pc_run (pc_waiting ++ [FCrash]) in
  qlist "q" (sw (q f)) Queued = ["a"] ∧
  (jstatus ∘ ctx <$> stored (M := Z) (sw (q f)) "a") = Some Queued ∧
  ∀ fs2, (∀ c, FCall c ∈ fs2 → submits_call c = false) →
    runs (q (pc_run (pc_waiting ++ [FCrash] ++ fs2))) = [] ∧
    qlist "q" (sw (q (pc_run (pc_waiting ++ [FCrash] ++ fs2)))) Queued = ["a"].
Proof.
  cbv zeta.
  assert (qlist "q" (sw (q (pc_run (pc_waiting ++ [FCrash])))) Queued = ["a"]) as E1 by (by vm_compute).
  assert (runs (q (pc_run (pc_waiting ++ [FCrash]))) = []) as E2 by (by vm_compute).
  split; [exact E1|]. split; [by vm_compute|]. intros fs2 H.
  destruct (pc_idle pc_waiting fs2 H) as (Hw & Hr).
  rewrite Hw, Hr. exact (conj E2 E1).
Qed.
Print Assumptions C63_resumes_refuted.
(** With a submission it is. *)
Example C63_first_submission_case :
  let f := pc_run (pc_waiting ++ [FCrash]) in
  alive (sys_step Debug demo_sched "q" (mem_h demo_clock) (q f) EvStart).1 = true ∧
  map jid (runs (q (front_run Debug demo_sched "q" (mem_h demo_clock) f
    ([FCall (CRun (demo_job "b" 1) new_re_run); FGo 1; FGo 1; FAj; FGo 1; FBegin; FHandle; FOwn EvTick]%nat
     ++ map FOwn (demo_polls 0 (demo_ok 2)))))) = ["a"].
Proof. cbv zeta. split; by vm_compute. Qed.

Example C63_first_just_run_case :
  let f := pc_run [FCall (CJust (demo_job "a" 1)); FAj; FGo 0; FGo 0; FAj; FGo 0; FBegin; FHandle]%nat in
  qlist "q" (sw (q f)) Queued = ["a"] ∧ aj_up f = true ∧ map (λ x, x.1.1) (trace f) = [None; Some 0%nat].
Proof. cbv zeta. split; [by vm_compute|]. split; by vm_compute. Qed.
(** Two first submissions at the same time: the second registration kills AJ. *)
Example C62_aj_dies_case :
  let f := pc_run [FCall (CRun (demo_job "a" 1) new_re_run); FCall (CRun (demo_job "b" 1) new_re_run);
                   FGo 0; FGo 1; FGo 0; FGo 1; FAj]%nat in
  aj_up f = true ∧ aj_up (fstep Debug demo_sched "q" (mem_h demo_clock) f FAj) = false.
Proof. cbv zeta. split; by vm_compute. Qed.

(** C64 is false in general.  update_job reads the running job "a", which then finishes, and submits what it
    read: "a" is executed a second time, but run_count says 1 in the end.  At whatever place of the same
    history update_job had taken effect at one moment, this would not be so. *)
Definition pc_finish : list (event Z) := demo_polls 0 (demo_ok 2).
Definition pc_update : list (fevent Z) :=
  pc_waiting ++ [FOwn EvTick] ++ take 2 (map FOwn pc_finish) ++
  [FCall (CUpdate "a" 7%Z None); FGo 1; FGo 1; FHandle]%nat ++ drop 2 (map FOwn pc_finish) ++
  [FOwn EvTick; FGo 1; FGo 1; FHandle; FOwn EvTick]%nat ++ map FOwn pc_finish ++ [FOwn EvTick].
Definition pc_others : list (event Z) :=
  omap (λ x : option nat * event Z * response Z, if decide (x.1.1 = Some 1%nat) then None else Some x.1.2)
    (trace (pc_run pc_update)).
Definition pc_observe (s : sys world Z) : nat * option nat :=
  (length (runs_of "a" s), run_count ∘ ctx <$> stored (M := Z) (sw s) "a").
Theorem C64_update_atomic_refuted :
  nth 1 (pc_returned (pc_run pc_update)) None = Some (RUnit (Ok tt)) ∧
  pc_observe (q (pc_run pc_update)) = (2%nat, Some 1%nat) ∧
  Forall (λ n, let s := (update_job Debug demo_sched "q" (mem_h demo_clock) (demo_after (take n pc_others)) "a" 7 None).1 in
               pc_observe (sys_run Debug demo_sched "q" (mem_h demo_clock) s (drop n pc_others)) ≠ (2%nat, Some 1%nat))
    (seq 0 (S (length pc_others))).
Proof.
  split; [by vm_compute|]. split; [by vm_compute|].
  apply list.Forall_forall. intros n Hn. apply elem_of_list_In, in_seq in Hn.
  assert (length pc_others = 14%nat) as El by (by vm_compute). rewrite El in Hn.
  do 15 (destruct n as [|n]; [by vm_compute|]). lia.
Qed.
Print Assumptions C64_update_atomic_refuted.
(** A case of the positive part: update_job of a waiting job, with a submission in between. *)
Definition pc_atomic : list (fevent Z) :=
  pc_waiting ++
  [FCall (CUpdate "a" 7%Z None); FGo 1; FGo 1; FCall (CRun (demo_job "b" 1) new_re_run); FGo 2; FGo 2; FHandle; FHandle;
   FGo 1; FGo 1; FHandle]%nat.
Example C64_case :
  let f := pc_run pc_atomic in
  map (λ x, (x.1.1, match x.1.2 with EvGet _ => true | _ => false end)) (steps_of 1 (trace f)) = [(2, true); (4, false)]%nat ∧
  (data <$> stored (M := Z) (sw (q f)) "a") = Some 7.
Proof. cbv zeta. split; by vm_compute. Qed.
