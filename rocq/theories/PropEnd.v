(** From the call to the execution, in endless executions of a process. *)
From Verif Require Import SpecEnd HistFacts StarveFacts LiveFacts ClientFacts EndFacts EndLive Demo.

Section theorems.
  Context {M : Type} `{SM : Serde M} {SO : SerdeOk M}.
  Context (prof : profile).
  Context (sched : string → option (time → option time)).
  Context (name : string).

  (** C103.  [fe] is any endless execution of a process and its callers, on any backend, with any deaths.  If
      threads go on and mailboxes are read, every call comes to its end. *)
  Theorem C103_answered {W} (h : handler W) (w : W) (fe : nat → fevent M) n i c :
    serving prof sched name h w fe →
    cs (instant prof sched name h w fe n) !! i = Some c →
    ∃ m c', (n <= m)%nat ∧ cs (instant prof sched name h w fe m) !! i = Some c' ∧ over c'.
  Proof. intros H. exact (comes_over prof sched name h w fe H n i c). Qed.

  (** If nothing dies, the timer fires and tasks are polled again and again, the limit is never 0 and the
      number of arrivals is bounded: run() of a job with a new id, that nobody else submits, updates or
      cancels, returns Ok, the job is executed, with the data submitted, and its execution ends. *)
  Context (clock : nat → time).
  Notation at_ fe n := (instant prof sched name (mem_h clock) world_empty fe n).
  Theorem C103_executed (fe : nat → fevent M) n0 j ec B :
    let i := length (cs (at_ fe n0)) in
    let events n := map (λ x, x.1.2) (trace (at_ fe n)) in
    serving prof sched name (mem_h clock) world_empty fe →
    lasting prof sched name (mem_h clock) world_empty fe →
    working prof sched name (mem_h clock) world_empty fe →
    (∀ n, begun (at_ fe n) = true → (1 <= max_processing_jobs (cfg (q (at_ fe n))))%nat) →
    (∀ n, ok_hist prof sched name clock initial (events n)) →
    Z.of_nat B <= i32_max → (∀ n, (arrivals prof sched name clock initial (events n) <= B)%nat) →
    fe n0 = FCall (CRun j ec) → comes_due clock j →
    (∀ n k c, cs (at_ fe n) !! k = Some c → k ≠ i → ¬ meddles (jid j) (c_call c)) →
    (∃ m c to, (n0 <= m)%nat ∧ cs (at_ fe m) !! i = Some c ∧ c_at c = Returned (RUnit (Ok tt)) to) ∧
    ∃ m1 m2 x, (n0 <= m1 <= m2)%nat ∧
      head (runs_of (jid j) (q (at_ fe m1))) = Some x ∧ data x = data j ∧
      tasks_of (jid j) (q (at_ fe m2)) = [].
  Proof.
    intros i events H1 H2 H3 H4 H5 HB H6 H7 H8 H9.
    exact (executed prof sched name clock fe H1 H2 H3 H5 H4 n0 (CRun j ec) j ec (or_introl eq_refl) H7 H9 B H8 HB H6).
  Qed.
  (** The same for just_run(), whose caller gets no answer: AJ has it in the future that it spawned. *)
  Theorem C103_just_run (fe : nat → fevent M) n0 j B :
    let i := length (cs (at_ fe n0)) in
    let events n := map (λ x, x.1.2) (trace (at_ fe n)) in
    serving prof sched name (mem_h clock) world_empty fe →
    lasting prof sched name (mem_h clock) world_empty fe →
    working prof sched name (mem_h clock) world_empty fe →
    (∀ n, begun (at_ fe n) = true → (1 <= max_processing_jobs (cfg (q (at_ fe n))))%nat) →
    (∀ n, ok_hist prof sched name clock initial (events n)) →
    Z.of_nat B <= i32_max → (∀ n, (arrivals prof sched name clock initial (events n) <= B)%nat) →
    fe n0 = FCall (CJust j) → comes_due clock j →
    (∀ n k c, cs (at_ fe n) !! k = Some c → k ≠ i → ¬ meddles (jid j) (c_call c)) →
    (∃ m c to, (n0 <= m)%nat ∧ cs (at_ fe m) !! i = Some c ∧ c_at c = Returned (RUnit (Ok tt)) to) ∧
    ∃ m1 m2 x, (n0 <= m1 <= m2)%nat ∧
      head (runs_of (jid j) (q (at_ fe m1))) = Some x ∧ data x = data j ∧
      tasks_of (jid j) (q (at_ fe m2)) = [].
  Proof.
    intros i events H1 H2 H3 H4 H5 HB H6 H7 H8 H9.
    exact (executed prof sched name clock fe H1 H2 H3 H5 H4 n0 (CJust j) j new_re_run (or_intror (conj eq_refl eq_refl)) H7 H9 B H8 HB H6).
  Qed.
End theorems.
Print Assumptions C103_answered.
Print Assumptions C103_executed.
Print Assumptions C103_just_run.

(** Two threads: "a" is submitted for the 3rd millisecond, "b" a little later, by just_run; else the threads, the actors,
    the timer and the first task take turns for ever. *)
Definition pe_a : job Z := set_ctx (demo_job "a" 1) (set_jtype (ctx (demo_job "a" 1)) (ScheduledAt 3000000)).
Definition pe_turn (n : nat) : fevent Z :=
  match (n mod 7)%nat with
  | 0 => FGo 0 | 1 => FGo 1 | 2 => FAj | 3 => FBegin | 4 => FHandle | 5 => FOwn EvTick | _ => FOwn (EvTask 0 (demo_ok 1))
  end%nat.
Definition pe_fe (n : nat) : fevent Z :=
  if Nat.eqb n 0 then FCall (CRun pe_a new_re_run)
  else if Nat.eqb n 22 then FCall (CJust (demo_job "b" 2)) else pe_turn n.
Notation pe_at := (instant (M := Z) Debug demo_sched "q" (mem_h demo_clock) world_empty pe_fe).
Notation pe_step := (fstep Debug demo_sched "q" (mem_h demo_clock)).
Notation pe_events f := (map (λ x, x.1.2) (trace f)).
Notation pe_arrivals := (arrivals Debug demo_sched "q" demo_clock initial).

(** From the 91st event on nothing happens but ticks. *)
Definition pe_cs : list (cstate Z) :=
  [CState (CRun pe_a new_re_run) None (Returned (RUnit (Ok tt)) 4) 0;
   CState (CJust (demo_job "b" 2)) None (Returned (RUnit (Ok tt)) 9) 3]%nat.
Definition pe_idle (f : front Z world) : Prop :=
  q f = demo_after (pe_events f) ∧ aj_box f = [] ∧ q_box f = [] ∧ known f = true ∧ begun f = true ∧ aj_up f = true ∧
  cs f = pe_cs ∧ idle "q" 20 (q f) ∧ Forall plain_event (pe_events f) ∧ (pe_arrivals (pe_events f) <= 2)%nat.
Lemma pe_idle_step f n : pe_idle f → pe_idle (pe_step f (pe_turn n)).
Proof.
  intros Hf. pose proof Hf as (Eq & Ea & Eb & Ek & Ebg & Eu & Ec & Hi & Hp & Harr).
  assert (∀ e, e = EvTick ∨ (∃ i u, e = EvTask i u) → pe_idle (pe_step f (FOwn e))) as HO.
  { intros e He. pose proof Hi as (Hal & _). cbn [fstep]. rewrite Ebg, Hal.
    assert (own_event e = true) as -> by (by destruct He as [->|(?&?&->)]). cbn [andb].
    assert (idle "q" 20 (demo_step (q f) e).1) as Hi'.
    { apply idle_step; [|done|done]. rewrite Eq. by apply all_at_after, plain_ok. }
    unfold queue_step, settle. change (sys_step Debug demo_sched "q" (mem_h demo_clock) (q f) e) with (demo_step (q f) e).
    assert ((demo_step (q f) e).1 = demo_after (pe_events f ++ [e])) as Eq'.
    { unfold demo_after. rewrite (ApiFacts.snoc_after Debug demo_sched "q" demo_clock). unfold demo_step. by rewrite Eq. }
    assert (pe_arrivals (pe_events f ++ [e]) <= 2)%nat as Harr'.
    { rewrite (arrivals_app Debug demo_sched "q" demo_clock). cbn [arrivals].
      change (sys_run Debug demo_sched "q" (mem_h demo_clock) initial (pe_events f)) with (demo_after (pe_events f)).
      rewrite <-Eq. change (sys_step Debug demo_sched "q" (mem_h demo_clock) (q f) e) with (demo_step (q f) e).
      destruct Hi' as (_&_&_&->). destruct Hi as (_&_&_&->). cbn [length]. lia. }
    destruct (demo_step (q f) e) as [st r] eqn:Es. cbn [fst] in *. destruct Hi' as (Hal' & Hi'). rewrite Hal'.
    unfold pe_idle. cbn [q aj_box q_box known begun aj_up cs trace]. rewrite map_app. cbn [map fst snd].
    repeat (split; [done|]). split; [|done]. apply Forall_app. split; [done|]. constructor; [|done].
    by destruct He as [->|(?&?&->)]. }
  unfold pe_turn. destruct (n mod 7)%nat as [|[|[|[|[|[|k]]]]]]; cbn [fstep].
  - by rewrite Ec.
  - by rewrite Ec.
  - by rewrite Ea.
  - by rewrite Ek, Ebg.
  - by rewrite Eb.
  - apply HO. by left.
  - apply HO. right. eauto.
Qed.
Definition plain_b (e : event Z) : bool :=
  match e with EvEnqueue j _ => match jstatus (ctx j) with Queued => true | _ => false end | EvCrashIn _ _ => false | _ => true end.
Lemma plain_b_ok es : forallb plain_b es = true → Forall plain_event es.
Proof.
  intros H. rewrite forallb_forall in H. apply list.Forall_forall. intros e He. apply elem_of_list_In, H in He.
  destruct e; try done. cbn in *. by destruct (jstatus _).
Qed.
Lemma pe_hist n : q (pe_at n) = demo_after (pe_events (pe_at n)).
Proof. exact (q_hist Debug demo_sched "q" demo_clock pe_fe n). Qed.
Lemma pe_idle_end : pe_idle (pe_at 91).
Proof.
  split; [apply pe_hist|].
  split; [by vm_compute|]. split; [by vm_compute|]. split; [by vm_compute|]. split; [by vm_compute|]. split; [by vm_compute|].
  split; [by vm_compute|]. split; [split; [by vm_compute|split; [by vm_compute|split; by vm_compute]]|].
  split; [apply plain_b_ok; by vm_compute|]. apply Nat.leb_le. by vm_compute.
Qed.
Lemma pe_S n : pe_at (S n) = pe_step (pe_at n) (pe_fe n).
Proof. apply instant_S. Qed.
Lemma pe_late n : (91 <= n)%nat → pe_idle (pe_at n).
Proof.
  intros Hn. replace n with (91 + (n - 91))%nat by lia. induction (n - 91)%nat as [|d IH]; [apply pe_idle_end|].
  rewrite Nat.add_succ_r, pe_S. replace (pe_fe (91 + d)) with (pe_turn (91 + d)); [by apply pe_idle_step|].
  unfold pe_fe. by rewrite !(proj2 (Nat.eqb_neq _ _)) by lia.
Qed.
(** Before that: by computation. *)
Definition pe_id (c : cstate Z) : string := match c_call c with CRun j _ | CJust j => jid j | _ => "?" end.
Definition pe_good (polls : list (nat * option string)) (n : nat) (f : front Z world) : bool :=
  aj_up f && (if begun f then alive (q f) && Nat.eqb (max_processing_jobs (cfg (q f))) 20 else true) &&
  forallb plain_b (pe_events f) && Nat.leb (pe_arrivals (pe_events f)) 2 &&
  (match map pe_id (cs f) with [] | ["a"%string] | ["a"%string; "b"%string] => true | _ => false end) &&
  forallb (λ t, existsb (λ m, Nat.leb n m.1 && match m.2 with Some x => String.eqb x (tid t) | None => false end) polls) (tasks (q f)).
Definition polls_of (g : nat → option string) (l : list nat) : list (nat * option string) :=
  map (λ m, (m, g m)) (List.filter (λ m, Nat.ltb 22 m && Nat.eqb (m mod 7) 6) l).
Notation pe_polls := (polls_of (λ m, @tid Z <$> tasks (q (pe_at m)) !! 0%nat) (seq 0 91)).
Lemma pe_early : forallb (λ n, pe_good pe_polls n (pe_at n)) (seq 0 91) = true.
Proof. by vm_compute. Qed.
Lemma pe_turns r n : (r < 7)%nat → ∃ m, (n <= m)%nat ∧ pe_fe m = pe_turn r.
Proof.
  intros Hr. exists (r + (n + 30) * 7)%nat. split; [lia|]. unfold pe_fe. rewrite !(proj2 (Nat.eqb_neq _ _)) by lia.
  unfold pe_turn. by rewrite Nat.mod_add.
Qed.
Lemma pe_good_n n : (n < 91)%nat → pe_good pe_polls n (pe_at n) = true.
Proof.
  intros Hn. pose proof (proj1 (forallb_forall _ _) pe_early n) as H. apply H, elem_of_list_In, elem_of_seq. lia.
Qed.
Definition pe_fine (n : nat) (f : front Z world) : Prop :=
  aj_up f = true ∧
  (begun f = true → alive (q f) = true ∧ max_processing_jobs (cfg (q f)) = 20%nat) ∧
  Forall plain_event (pe_events f) ∧ (pe_arrivals (pe_events f) <= 2)%nat ∧
  (map pe_id (cs f) = [] ∨ map pe_id (cs f) = ["a"] ∨ map pe_id (cs f) = ["a"; "b"]).
Lemma pe_good_fine polls n f : pe_good polls n f = true → pe_fine n f ∧
  ∀ t, t ∈ tasks (q f) → ∃ m, (m, Some (tid t)) ∈ polls ∧ (n <= m)%nat.
Proof.
  intros H. unfold pe_good in H.
  apply andb_true_iff in H as [[[[[H1 H2]%andb_true_iff H3]%andb_true_iff H4]%andb_true_iff H5]%andb_true_iff H6].
  split; [split; [done|]; split; [|split; [by apply plain_b_ok|split; [by apply Nat.leb_le|]]]|].
  - intros E. rewrite E in H2. apply andb_true_iff in H2 as [H2 H2']. split; [done|]. by apply Nat.eqb_eq.
  - destruct (map pe_id (cs f)) as [|x [|y [|z l]]]; [by left|right; left|right; right|]; repeat (case_match; try done).
  - intros t Ht. rewrite forallb_forall in H6. specialize (H6 t). rewrite <-elem_of_list_In in H6. specialize (H6 Ht).
    apply existsb_exists in H6 as ([m o] & Hm & H6). cbn in H6. apply andb_true_iff in H6 as [H6 H7].
    apply Nat.leb_le in H6. exists m. split; [|done]. destruct o as [x|]; [|done]. apply String.eqb_eq in H7 as ->.
    by apply elem_of_list_In.
Qed.
Lemma polls_of_ok g l m x : (m, Some x) ∈ polls_of g l → g m = Some x ∧ pe_fe m = FOwn (EvTask 0 (demo_ok 1)).
Proof.
  intros Hm. unfold polls_of in Hm. apply elem_of_list_In, in_map_iff in Hm as (m' & E & Hm).
  pose proof (f_equal fst E) as E1. pose proof (f_equal snd E) as E2. cbn [fst snd] in E1, E2. subst m'. clear E.
  apply filter_In in Hm as [_ Hm]. apply andb_true_iff in Hm as [Hm1 Hm2]. apply Nat.ltb_lt in Hm1. apply Nat.eqb_eq in Hm2.
  split; [done|]. unfold pe_fe. rewrite !(proj2 (Nat.eqb_neq _ _)) by lia. unfold pe_turn. by rewrite Hm2.
Qed.
Lemma pe_all n : pe_fine n (pe_at n) ∧
  ∀ t, t ∈ tasks (q (pe_at n)) → ∃ m, (n <= m)%nat ∧ pe_fe m = FOwn (EvTask 0 (demo_ok 1)) ∧
    ∃ t', tasks (q (pe_at m)) !! 0%nat = Some t' ∧ tid t' = tid t.
Proof.
  destruct (decide (n < 91)%nat) as [Hn|Hn].
  - destruct (pe_good_fine _ _ _ (pe_good_n n Hn)) as [H1 H2]. split; [done|]. intros t Ht.
    destruct (H2 t Ht) as (m & Hm & Hle). exists m. split; [done|]. apply polls_of_ok in Hm as [H3 H4].
    split; [done|]. apply fmap_Some in H3 as (t' & H5 & H6). by exists t'.
  - destruct (pe_late n ltac:(lia)) as (Eq & Ea & Eb & Ek & Ebg & Eu & Ec & (Hal & Ht & HL & _) & Hp & Harr).
    split.
    + split; [done|]. split; [done|]. split; [done|]. split; [done|]. rewrite Ec. right. by right.
    + intros t. rewrite Ht. by intros ?%elem_of_nil.
Qed.
Example C103_serving : serving Debug demo_sched "q" (mem_h demo_clock) world_empty pe_fe.
Proof.
  split; [|split; [|split]].
  - intros n i c Hi _. assert (i < 2)%nat as Hlt.
    { apply lookup_lt_Some in Hi. rewrite <-(map_length pe_id) in Hi.
      destruct (pe_all n) as [(_&_&_&_&H) _]. destruct H as [H|[H|H]]; rewrite H in Hi; cbn in Hi; lia. }
    destruct (pe_turns i n ltac:(lia)) as (m & Hm & E). exists m. split; [done|]. rewrite E.
    destruct i as [|[|]]; [done|done|lia].
  - intros n _. apply (pe_turns 2 n). lia.
  - intros n _. apply (pe_turns 4 n). lia.
  - intros n _ _. apply (pe_turns 3 n). lia.
Qed.
Example C103_lasting : lasting Debug demo_sched "q" (mem_h demo_clock) world_empty pe_fe.
Proof.
  intros n. destruct (pe_all n) as [(H1&H2&_) _]. split; [|split; [done|]].
  - unfold pe_fe. destruct (Nat.eqb n 0); [done|]. destruct (Nat.eqb n 22); [done|]. unfold pe_turn. by repeat case_match.
  - intros E. by destruct (H2 E).
Qed.
Example C103_working : working Debug demo_sched "q" (mem_h demo_clock) world_empty pe_fe.
Proof.
  split.
  - intros n _. apply (pe_turns 5 n). lia.
  - intros n t Ht. destruct (pe_all n) as [_ H]. destruct (H t Ht) as (m & Hm & E & t' & H1 & H2).
    exists m, 0%nat, (demo_ok 1), t'. done.
Qed.
Example C103_case :
  (∀ n, begun (pe_at n) = true → (1 <= max_processing_jobs (cfg (q (pe_at n))))%nat) ∧
  (∀ n, ok_hist Debug demo_sched "q" demo_clock initial (pe_events (pe_at n))) ∧
  (∀ n, (pe_arrivals (pe_events (pe_at n)) <= 2)%nat) ∧
  pe_fe 0 = FCall (CRun pe_a new_re_run) ∧ comes_due demo_clock pe_a ∧
  (∀ n k c, cs (pe_at n) !! k = Some c → k ≠ length (cs (pe_at 0)) → ¬ meddles (jid pe_a) (c_call c)) ∧
  pe_fe 22 = FCall (CJust (demo_job "b" 2)) ∧ comes_due demo_clock (demo_job "b" 2) ∧
  (∀ n k c, cs (pe_at n) !! k = Some c → k ≠ length (cs (pe_at 22)) → ¬ meddles "b" (c_call c)).
Proof.
  split; [|split; [|split; [|split; [done|split; [|split; [|split; [done|split; [done|]]]]]]]].
  - intros n E. destruct (pe_all n) as [(_&H&_) _]. destruct (H E) as [_ ->]. lia.
  - intros n. apply plain_ok. by destruct (pe_all n) as [(_&_&H&_) _].
  - intros n. by destruct (pe_all n) as [(_&_&_&H&_) _].
  - exists 4%nat. intros k Hk. unfold demo_clock. lia.
  - intros n k c Hk Hne. change (length (cs (pe_at 0))) with 0%nat in Hne.
    destruct (pe_all n) as [(_&_&_&_&H) _].
    assert (map pe_id (cs (pe_at n)) !! k = Some (pe_id c)) as Hid by (by rewrite list_lookup_fmap, Hk).
    assert (pe_id c = "b") as E.
    { destruct H as [H|[H|H]]; rewrite H in Hid; destruct k as [|[|k]]; try done. by injection Hid. }
    unfold pe_id in E. destruct (c_call c); try done; cbn; by rewrite E.
  - intros n k c Hk Hne. assert (length (cs (pe_at 22)) = 1%nat) as E1 by (by vm_compute). rewrite E1 in Hne. clear E1.
    destruct (pe_all n) as [(_&_&_&_&H) _].
    assert (map pe_id (cs (pe_at n)) !! k = Some (pe_id c)) as Hid by (by rewrite list_lookup_fmap, Hk).
    assert (pe_id c = "a") as E.
    { destruct H as [H|[H|H]]; rewrite H in Hid; destruct k as [|[|k]]; try done; by injection Hid. }
    unfold pe_id in E. destruct (c_call c); try done; cbn; by rewrite E.
Qed.
(** What it predicts: both calls return Ok, "a" is executed with its data. *)
Example C103_case_executed :
  map c_at (cs (pe_at 91)) = [Returned (RUnit (Ok tt)) 4; Returned (RUnit (Ok tt)) 9]%nat ∧
  map (λ j, (jid j, data j)) (runs (q (pe_at 91))) = [("a", 1); ("b", 2)] ∧ tasks (q (pe_at 91)) = [].
Proof. split; [by vm_compute|]. split; by vm_compute. Qed.
