(** A queue on a Redis server that other programs use too: what it touches, sees, and does with values of the wrong type. *)
From Verif Require Import Spec SpecKeys BackendFacts KeysFacts Demo.
Import Spec.
Open Scope Z_scope.

Section theorems.
  Context {M : Type} `{SM : Serde M} {SO : SerdeOk M}.
  Context (prof : profile).
  Context (sched : string → option (time → option time)).
  Context (name : string).
  Context (clock : nat → time).
  Notation go := (sys_run prof sched name (redis_h clock)).
  Notation mgo := (sys_run prof sched name (mem_h clock)).
  Notation answers h := (responses prof sched name (h clock)).
  Notation record := (@r_record M SM).

  (** C113.  From any state and in any history, crashes and restarts included, a queue leaves every key that is not
      its own as it is. *)
  Theorem C113_frame (s : sys rworld M) es k : ¬ own_key name k → keys (sw (go s es)) !! k = keys (sw s) !! k.
  Proof. exact (keys_frame prof sched name clock s es k). Qed.
  (** And it does not see them: two servers that differ in other keys only give the same answers, tasks, executions
      and content of the own keys. *)
  Theorem C113_blind (s s' : sys rworld M) es :
    same_own name (sw s) (sw s') → same_process s s' →
    answers redis_h s es = answers redis_h s' es ∧
    same_own name (sw (go s es)) (sw (go s' es)) ∧ same_process (go s es) (go s' es).
  Proof. exact (keys_blind prof sched name clock s s' es). Qed.
  (** Whatever the server holds, if the own keys have the expected types: there is a state of the in-memory queue
      from which every history is the same. *)
  Theorem C113_any (s : sys rworld M) :
    typed name (sw s) → ∃ z : sys world M,
      (∀ es, answers mem_h z es = answers redis_h s es) ∧
      ∀ es, same_process (mgo z es) (go s es) ∧ typed name (sw (go s es)) ∧
        (∀ x, r_list name (sw (go s es)) x = qlist name (sw (mgo z es)) x) ∧
        (∀ id, record (sw (go s es)) id = stored (sw (mgo z es)) id).
  Proof. exact (any_keyspace prof sched name clock s). Qed.
  (** Progress whatever such a server holds: as C109. *)
  Theorem C113_progress (s0 : sys rworld M) (ev : nat → event M) n0 id j B :
    k_sound name s0 → k_healthy prof sched name clock s0 ev → ticking ev → k_polling prof sched name clock s0 ev →
    let s n := k_moment prof sched name clock s0 ev n in
    id ∈ r_list name (sw (s n0)) Queued → record (sw (s n0)) id = Some j → id ∉ map tid (tasks (s n0)) →
    (∀ n, (n0 <= n)%nat → ¬ revives id (ev n) ∧ ev n ≠ EvCancel id) →
    (∃ k0, ∀ k, (k0 <= k)%nat → due j (clock k)) →
    (∀ d, (k_added prof sched name clock s0 ev n0 d <= B)%nat) →
    ∃ n1, (n0 <= n1)%nat ∧ (length (runs_of id (s n0)) < length (runs_of id (s n1)))%nat.
  Proof. exact (k_progress prof sched name clock s0 ev n0 id j B). Qed.
  (** Which jobs calls can bring back: as C111. *)
  Theorem C113_way_back (s : sys rworld M) (j : job M) d u :
    k_sound name s → k_status s (jid j) ≠ Some Running →
    Z.of_nat (S (length (r_list name (sw s) Queued))) <= i32_max →
    (∀ j' k, read_back j j' → due j' (clock k)) →
    ∃ c i, process_tick_duration c = d ∧
      let z := go s (rescue j c i u) in
      alive z = true ∧ ∃ x, runs_of (jid j) z = runs_of (jid j) s ++ [x] ∧ jid x = jid j ∧ data x = data j.
  Proof. exact (k_way_back prof sched name clock s j d u). Qed.
  Theorem C113_no_way (s : sys rworld M) id es :
    typed name (sw s) → (∀ k j, record (sw s) k = Some j → jid j = k) → (∀ t, t ∈ tasks s → sound_task t) →
    k_limbo name s id → k_limbo name (go s es) id ∧ runs_of id (go s es) = runs_of id s.
  Proof. exact (k_no_way prof sched name clock s id es). Qed.
  Theorem C113_exactly (s : sys rworld M) (j : job M) :
    k_sound name s → jid j ∉ map tid (tasks s) →
    Z.of_nat (S (length (r_list name (sw s) Queued))) <= i32_max →
    (∀ j' k, read_back j j' → due j' (clock k)) →
    (∀ r k, record (sw s) (jid j) = Some r → jstatus (ctx r) = Running → (rreads (sw s) <= k)%nat → due r (clock k)) →
    (∃ es, (length (runs_of (jid j) s) < length (runs_of (jid j) (go s es)))%nat) ↔ ¬ k_limbo name s (jid j).
  Proof. exact (k_exactly prof sched name clock s j). Qed.

  (** C115.  Other programs change other keys in any way, before any call of the backend: answers, tasks, executions
      and the content of the own keys are as if the queue were alone. *)
  Theorem C115_noise noise (s : sys (rworld * nat) M) (s' : sys rworld M) es :
    polite name noise → same_own name (sw s).1 (sw s') → same_process s s' →
    let t := sys_run prof sched name (noisy_h clock noise) s es in
    responses prof sched name (noisy_h clock noise) s es = answers redis_h s' es ∧
    same_own name (sw t).1 (sw (go s' es)) ∧ same_process t (go s' es).
  Proof. exact (keys_noise prof sched name clock noise s s' es). Qed.

  (** C114.  A value of the wrong type under a key of the queue stays as it is, whatever is called. *)
  Theorem C114_kept (s : sys rworld M) es :
    (∀ x m, keys (sw s) !! format_queue_name name x = Some (RHash m) →
       keys (sw (go s es)) !! format_queue_name name x = Some (RHash m)) ∧
    (∀ l, keys (sw s) !! STORAGE_HASH = Some (RList l) → keys (sw (go s es)) !! STORAGE_HASH = Some (RList l)).
  Proof.
    split; [intros x m|intros l]; apply run_stuck; [by exists x|done].
  Qed.
  (** Every command on such a key is refused, and changes nothing at all. *)
  Theorem C114_refused (w : rworld) :
    (∀ q m x q' n d d' l, keys w !! q = Some (RHash m) →
       redis_h clock _ (QPush q x) w = (w, Err ERedis) ∧
       redis_h clock _ (QRemove q x) w = (w, Err ERedis) ∧
       redis_h clock _ (QGet q n d) w = (w, Err ERedis) ∧
       redis_h clock _ (QCount q) w = (w, Err ERedis) ∧
       redis_h clock _ (QMove q q' (S n) d d') w = (w, Err ERedis) ∧
       (keys w !! q' = Some (RList (x :: l)) → redis_h clock _ (QMove q' q (S n) d d') w = (w, Err ERedis))) ∧
    (∀ h l k v, keys w !! h = Some (RList l) →
       redis_h clock _ (SUpsert h k v) w = (w, Err ERedis) ∧ redis_h clock _ (SGet h k) w = (w, Err ERedis)).
  Proof. exact (calls_refused clock w). Qed.
  (** If it is the waiting list, the list of picked jobs or the records, no job is picked any more: no new task,
      no execution, for ever. *)
  Theorem C114_jammed (s : sys rworld M) es :
    jammed name (sw s) → tasks s = [] →
    jammed name (sw (go s es)) ∧ tasks (go s es) = [] ∧ runs (go s es) = runs s.
  Proof. intros H1 H2. split; [by apply run_jammed|by apply jam_idle]. Qed.
End theorems.
Print Assumptions C113_frame.
Print Assumptions C113_blind.
Print Assumptions C113_any.
Print Assumptions C113_progress.
Print Assumptions C113_way_back.
Print Assumptions C113_no_way.
Print Assumptions C113_exactly.
Print Assumptions C114_kept.
Print Assumptions C114_refused.
Print Assumptions C114_jammed.
Print Assumptions C115_noise.

(** *** Examples *)
(** A server with a key of another program, a list of another queue, and a record that another queue wrote; "a" waits
    twice and "ghost" has no record. *)
Definition other_record : gmap string value :=
  <["z" := enc_job (demo_job "z" 3)]> (<["a" := enc_job (demo_job "a" 1)]> ∅).
Definition shared : rworld :=
  RWorld (<["sessions" := RHash (<["u" := None]> ∅)]> (<[format_queue_name "p" Queued := RList ["z"]]>
    (<[format_queue_name "q" Queued := RList ["a"; "ghost"; "a"]]> (<[STORAGE_HASH := RHash other_record]> ∅)))) 0 [].
Definition shared_sys : sys rworld Z := Sys shared (WqConfig 1 3) [] true [].
Definition alone_sys : sys rworld Z :=
  Sys (RWorld (delete "sessions" (delete (format_queue_name "p" Queued) (keys shared))) 0 []) (WqConfig 1 3) [] true [].
Notation k_run := (sys_run Release demo_sched "q" (redis_h demo_clock)).
Definition k_day : list (event Z) :=
  [EvTick; EvEnqueue (demo_job "b" 2) (EnqueueConfig true true); EvTask 0 (demo_ok 5); EvTask 0 (demo_ok 5); EvCrash; EvStart].

Lemma not_own_sessions : ¬ own_key "q" "sessions".
Proof. intros [H|[[] H]]; by vm_compute in H. Qed.
Lemma not_own_p : ¬ own_key "q" (format_queue_name "p" Queued).
Proof. intros [H|[[] H]]; by vm_compute in H. Qed.
Lemma shared_typed : typed "q" shared.
Proof. split; [intros [] m H|intros l H]; by vm_compute in H. Qed.
Example ex_C113_frame :
  keys (sw (k_run shared_sys k_day)) !! "sessions" = Some (RHash (<["u" := None]> ∅)) ∧
  keys (sw (k_run shared_sys k_day)) !! format_queue_name "p" Queued = Some (RList ["z"]) ∧
  r_list "q" (sw (k_run shared_sys k_day)) Queued = ["ghost"] ∧
  r_list "q" (sw (k_run shared_sys k_day)) Running = ["b"; "a"; "a"] ∧
  map jid (runs (k_run shared_sys k_day)) = ["a"].
Proof.
  split; [by rewrite (C113_frame (M := Z)) by exact not_own_sessions|].
  split; [by rewrite (C113_frame (M := Z)) by exact not_own_p|]. by vm_compute.
Qed.
Lemma shared_alone : same_own "q" (sw shared_sys) (sw alone_sys).
Proof.
  split; [|done]. intros k Hk. cbn [sw shared_sys alone_sys keys].
  rewrite !lookup_delete_ne; [done|intros <-; by apply not_own_p|intros <-; by apply not_own_sessions].
Qed.
Example ex_C113_blind :
  keys (sw shared_sys) !! "sessions" ≠ keys (sw alone_sys) !! "sessions" ∧
  responses Release demo_sched "q" (redis_h demo_clock) shared_sys k_day =
  responses Release demo_sched "q" (redis_h demo_clock) alone_sys k_day.
Proof.
  split; [by vm_compute|]. apply (C113_blind Release demo_sched "q" demo_clock shared_sys alone_sys k_day shared_alone). done.
Qed.
Example ex_C113_any : ∃ z : sys world Z, ∀ es,
  responses Release demo_sched "q" (mem_h demo_clock) z es = responses Release demo_sched "q" (redis_h demo_clock) shared_sys es ∧
  r_list "q" (sw (k_run shared_sys es)) Queued = qlist "q" (sw (sys_run Release demo_sched "q" (mem_h demo_clock) z es)) Queued.
Proof.
  destruct (C113_any Release demo_sched "q" demo_clock shared_sys shared_typed) as (z & H1 & H2). exists z. intros es.
  split; [apply H1|]. by destruct (H2 es) as (_ & _ & E & _).
Qed.

(** "x" is stored as running, and nobody knows it. *)
Definition lost_record : job Z := set_ctx (demo_job "x" 4) (set_jstatus (ctx (demo_job "x" 4)) Running).
Definition with_lost : rworld := RWorld (<[STORAGE_HASH := RHash (<["x" := enc_job lost_record]> other_record)]> (keys shared)) 0 [].
Definition lost_sys : sys rworld Z := Sys with_lost (WqConfig 1 3) [] true [].
Lemma with_lost_typed : typed "q" with_lost.
Proof. split; [intros [] m H|intros l H]; by vm_compute in H. Qed.
Lemma with_lost_keyed id (j : job Z) : r_record with_lost id = Some j → jid j = id.
Proof.
  unfold r_record, with_lost. cbn [keys]. rewrite lookup_insert. unfold other_record.
  destruct (decide ("x" = id)) as [<-|H1]; [rewrite lookup_insert; vm_compute; by intros [= <-]|rewrite lookup_insert_ne by done].
  destruct (decide ("z" = id)) as [<-|H2]; [rewrite lookup_insert; vm_compute; by intros [= <-]|rewrite lookup_insert_ne by done].
  destruct (decide ("a" = id)) as [<-|H3]; [rewrite lookup_insert; vm_compute; by intros [= <-]|rewrite lookup_insert_ne by done].
  by rewrite lookup_empty.
Qed.
Lemma lost_sound : k_sound "q" lost_sys.
Proof.
  split; [done|]. split; [exact with_lost_typed|]. split; [exact with_lost_keyed|]. by intros t ?%elem_of_nil.
Qed.
Lemma lost_limbo : k_limbo "q" lost_sys "x".
Proof.
  split; [by vm_compute|]. assert (r_list "q" (sw lost_sys) Queued = ["a"; "ghost"; "a"]) as -> by (by vm_compute).
  split; [|by intros ?%elem_of_nil]. apply (bool_decide_eq_true_1 (_ ∉ _)). by vm_compute.
Qed.
Example ex_C113_no_way es : k_limbo "q" (k_run lost_sys es) "x" ∧ runs_of "x" (k_run lost_sys es) = [].
Proof.
  apply (C113_no_way Release demo_sched "q" demo_clock lost_sys "x" es);
    [exact with_lost_typed|exact with_lost_keyed|by intros t ?%elem_of_nil|exact lost_limbo].
Qed.
Lemma k_normal_due (j' : job Z) id d k : read_back (demo_job id d) j' → due j' (demo_clock k).
Proof. intros (_ & _ & Hty & _). unfold due. cbn in Hty. by inversion Hty. Qed.
Example ex_C113_exactly : ∃ es, (length (runs_of "z" lost_sys) < length (runs_of "z" (k_run lost_sys es)))%nat.
Proof.
  apply (C113_exactly Release demo_sched "q" demo_clock lost_sys (demo_job "z" 9)).
  - exact lost_sound.
  - by intros ?%elem_of_nil.
  - by vm_compute.
  - intros j' k. apply k_normal_due.
  - intros r k Hr Hs. exfalso. assert (k_status lost_sys "z" = Some Queued) as E by (by vm_compute).
    unfold k_status in E. change (jid (demo_job "z" 9)) with "z" in Hr. rewrite Hr in E. cbn in E. congruence.
  - intros [E _]. by vm_compute in E.
Qed.
Example ex_C113_way_back : ∃ c i, process_tick_duration c = 1 ∧
  let z := k_run lost_sys (rescue (demo_job "z" 9) c i (demo_ok 0)) in
  alive z = true ∧ ∃ x, runs_of "z" z = runs_of "z" lost_sys ++ [x] ∧ jid x = "z" ∧ data x = 9.
Proof.
  apply (C113_way_back Release demo_sched "q" demo_clock lost_sys (demo_job "z" 9) 1 (demo_ok 0)).
  - exact lost_sound.
  - by vm_compute.
  - by vm_compute.
  - intros j' k. apply k_normal_due.
Qed.

(** The same server with "a" waiting once; "b" was picked by a process that died. *)
Definition waits_a : rworld :=
  RWorld (<[format_queue_name "q" Queued := RList ["a"]]> (<[format_queue_name "q" Running := RList ["b"]]> (keys with_lost))) 0 [].
Definition waits_sys : sys rworld Z := Sys waits_a (WqConfig 1 3) [] true [].
Definition k_beats (n : nat) : event Z := if Nat.even n then EvTick else EvTask 0 (demo_ok 1).
Notation k_at n := (k_moment Release demo_sched "q" demo_clock waits_sys k_beats n).
Lemma waits_sound : k_sound "q" waits_sys.
Proof.
  split; [done|]. split; [split; [intros [] m H|intros l H]; by vm_compute in H|]. split; [|by intros t ?%elem_of_nil].
  intros id j H. apply with_lost_keyed. revert H. unfold r_record, waits_sys, waits_a. cbn [sw keys].
  by rewrite !lookup_insert_ne by (by vm_compute).
Qed.
Lemma k_rest n : k_at (12 + n)%nat = k_at 12.
Proof.
  assert (typed "q" (sw (k_at 12))) as Ht.
  { destruct (C113_any Release demo_sched "q" demo_clock waits_sys) as (z & _ & H); [apply waits_sound|].
    by destruct (H (map k_beats (seq 0 12))) as (_ & ? & _). }
  induction n as [|n IH]; [by rewrite Nat.add_0_r|].
  rewrite Nat.add_succ_r, (k_S Release demo_sched "q" demo_clock waits_sys k_beats (12 + n)), IH.
  unfold k_beats at 2. destruct (Nat.even (12 + n)); [apply r_tick_nothing|apply r_poll_nothing]; try done; by vm_compute.
Qed.
Lemma k_rest' k : (12 <= k)%nat → k_at k = k_at 12.
Proof. intros Hk. rewrite <-(k_rest (k - 12)). f_equal. lia. Qed.
Lemma first_12 (f : nat → bool) : forallb f (seq 0 12) = true → ∀ k, (k < 12)%nat → f k = true.
Proof. intros H k Hk. rewrite forallb_forall in H. apply H, elem_of_list_In, elem_of_seq. lia. Qed.
Definition k_fine (s : sys rworld Z) : bool :=
  alive s && (1 <? max_processing_jobs (cfg s))%nat && (Z.of_nat (length (r_list "q" (sw s) Queued)) <=? i32_max).
Lemma k_all_fine n : k_fine (k_at n) = true.
Proof.
  destruct (decide (12 <= n)%nat) as [H|H]; [rewrite (k_rest' n H); by vm_compute|].
  apply (first_12 (λ n, k_fine (k_at n))); [by vm_compute|lia].
Qed.
Lemma k_beats_healthy : k_healthy Release demo_sched "q" demo_clock waits_sys k_beats.
Proof.
  intros n. pose proof (k_all_fine n) as H. unfold k_fine in H. apply andb_true_iff in H as [H H3]. apply andb_true_iff in H as [H1 H2].
  split; [unfold k_beats; by destruct (Nat.even n)|]. split; [done|]. split; [|by apply Z.leb_le].
  assert (length (k_lost "q" waits_sys) = 1%nat) as -> by (by vm_compute). by apply Nat.ltb_lt.
Qed.
Lemma k_beats_ticking : ticking k_beats.
Proof. intros n. exists (2 * n)%nat. split; [lia|]. unfold k_beats. by rewrite Nat.even_mul. Qed.
Local Instance ktz_dec : EqDecision (task Z).
Proof.
  assert (EqDecision strategy) by solve_decision. assert (EqDecision retry) by solve_decision.
  assert (EqDecision cron_context) by solve_decision. assert (EqDecision job_type) by solve_decision.
  assert (EqDecision context) by solve_decision. assert (EqDecision (job Z)) by solve_decision.
  solve_decision.
Defined.
Definition k_ahead (n : nat) (t : task Z) : bool :=
  existsb (λ d, negb (Nat.even (n + d)) && bool_decide (tasks (k_at (n + d)) !! 0%nat = Some t)) (seq 0 12).
Lemma k_beats_polling : k_polling Release demo_sched "q" demo_clock waits_sys k_beats.
Proof.
  intros n t Ht. assert (k_ahead n t = true) as H.
  { destruct (decide (12 <= n)%nat) as [H|H].
    - exfalso. rewrite (k_rest' n H) in Ht. assert (tasks (k_at 12) = []) as E by (by vm_compute). rewrite E in Ht. by apply elem_of_nil in Ht.
    - assert (forallb (k_ahead n) (tasks (k_at n)) = true) as Hk.
      { apply (first_12 (λ k, forallb (k_ahead k) (tasks (k_at k)))); [by vm_compute|lia]. }
      rewrite forallb_forall in Hk. by apply Hk, elem_of_list_In. }
  apply existsb_exists in H as (d & _ & H). apply andb_true_iff in H as [H1 H2]. exists (n + d)%nat, 0%nat, (demo_ok 1). split; [lia|].
  split; [unfold k_beats; by destruct (Nat.even (n + d))|]. by apply bool_decide_eq_true_1 in H2.
Qed.
Example ex_C113_progress : ∃ n1, (0 < length (runs_of "a" (k_at n1)))%nat.
Proof.
  assert (∃ j : job Z, r_record (sw (k_at 0)) "a" = Some j ∧ jtype (ctx j) = Normal) as (j & Hs & Hn).
  { vm_compute. eexists. split; reflexivity. }
  destruct (C113_progress Release demo_sched "q" demo_clock waits_sys k_beats 0 "a" j 0) as (n1 & _ & H).
  - exact waits_sound.
  - exact k_beats_healthy.
  - exact k_beats_ticking.
  - exact k_beats_polling.
  - vm_compute. left.
  - done.
  - vm_compute. by intros ?%elem_of_nil.
  - intros n _. unfold k_beats. destruct (Nat.even n); (split; [by intros H|done]).
  - exists 0%nat. intros k _. unfold due. by rewrite Hn.
  - intros d. assert (∀ m, (k_added Release demo_sched "q" demo_clock waits_sys k_beats m d <= 0)%nat) as G; [|apply G].
    unfold k_added. induction d as [|d IH]; intros m; [apply le_n|]. cbn [seq sum_list_with]. specialize (IH (S m)).
    assert (length (r_list "q" (sw (k_at (S m))) Queued) <= length (r_list "q" (sw (k_at m)) Queued))%nat; [|lia].
    destruct (decide (12 <= m)%nat) as [Hm|Hm].
    + rewrite (k_rest' (S m)), (k_rest' m) by lia. apply le_n.
    + apply Nat.leb_le. apply (first_12 (λ m, (length (r_list "q" (sw (k_at (S m))) Queued) <=? length (r_list "q" (sw (k_at m)) Queued))%nat)); [by vm_compute|lia].
  - exists n1. lia.
Qed.

(** Another program wrote a hash under the key of the picked jobs: "a" is marked as running and stays in the waiting
    list; submissions are still accepted. *)
Definition broken : rworld :=
  RWorld (<[format_queue_name "q" Running := RHash ∅]> (keys shared)) 0 [].
Definition broken_sys : sys rworld Z := Sys broken (WqConfig 1 3) [] true [].
Example ex_C114_jammed es : tasks (k_run broken_sys es) = [] ∧ runs (k_run broken_sys es) = [].
Proof.
  apply (C114_jammed Release demo_sched "q" demo_clock broken_sys es); [|done]. right. left. exists ∅. by vm_compute.
Qed.
Example ex_C114_state : let s := k_run broken_sys k_day in
  r_list "q" (sw s) Queued = ["b"; "a"; "ghost"; "a"] ∧ k_status s "a" = Some Running ∧ alive s = true.
Proof. by vm_compute. Qed.
Example ex_C114_refused : redis_h demo_clock _ (QMove (format_queue_name "q" Queued) (format_queue_name "q" Running) 1 Back Front) broken = (broken, Err ERedis).
Proof.
  apply (proj1 (C114_refused demo_clock broken) (format_queue_name "q" Running) ∅ "a" (format_queue_name "q" Queued) 0%nat Back Front ["ghost"; "a"]);
    by vm_compute.
Qed.
Example ex_C114_kept es : keys (sw (k_run broken_sys es)) !! format_queue_name "q" Running = Some (RHash ∅).
Proof. apply (C114_kept Release demo_sched "q" demo_clock broken_sys es). by vm_compute. Qed.
(** The other lists are only written: a hash under the key of the finished jobs stops nothing. *)
Definition full_sys : sys rworld Z :=
  Sys (RWorld (<[format_queue_name "q" Finished := RHash ∅]> (keys shared)) 0 []) (WqConfig 1 1) [] true [].
Example C114_finished_runs : let s := k_run full_sys ([EvTick] ++ demo_polls 0 (demo_ok 5)) in
  map jid (runs s) = ["a"] ∧ k_status s "a" = Some Finished ∧ tasks s = [] ∧ r_list "q" (sw s) Running = [].
Proof. by vm_compute. Qed.

(** Another queue "p" pushes before every call, and a program counts in "sessions". *)
Definition busy_server (n : nat) (ks : keyspace) : keyspace :=
  <["sessions" := RList (repeat "s" n)]> (rset ks (format_queue_name "p" Queued) (repeat "z" (S n))).
Lemma busy_polite : polite "q" busy_server.
Proof.
  intros n ks k Hk. unfold busy_server. rewrite lookup_insert_ne by (intros <-; by apply not_own_sessions).
  apply rset_lookup_ne. intros ->. by apply not_own_p.
Qed.
Definition noisy_sys : sys (rworld * nat) Z := Sys (shared, 0%nat) (WqConfig 1 3) [] true [].
Notation noisy_run := (sys_run Release demo_sched "q" (noisy_h demo_clock busy_server)).
Example ex_C115 es : runs (noisy_run noisy_sys es) = runs (k_run shared_sys es) ∧ tasks (noisy_run noisy_sys es) = tasks (k_run shared_sys es).
Proof.
  destruct (C115_noise Release demo_sched "q" demo_clock busy_server noisy_sys shared_sys es busy_polite) as (_ & _ & _ & E1 & _ & E2); done.
Qed.
Example ex_C115_day : map jid (runs (noisy_run noisy_sys k_day)) = ["a"] ∧
  (1 < length (r_list "p" (sw (noisy_run noisy_sys k_day)).1 Queued))%nat.
Proof. split; [by vm_compute|]. apply Nat.ltb_lt. by vm_compute. Qed.
