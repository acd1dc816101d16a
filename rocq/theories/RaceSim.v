(** Races contain the histories of one process with faults and the fleets of Workers.v; races on Redis
    are those on the in-memory backend. *)
From Verif Require Import Spec SpecRace SpecWorkers SpecMulti BackendFacts WorldFacts RedisFacts MultiFacts.

Section sim.
  Context {M : Type} `{SM : Serde M}.
  Context (prof : nat → profile).
  Context (sched : nat → string → option (time → option time)).
  Context (name : nat → string).
  Context (clock : nat → nat → time).
  Notation mem := (λ i, mem_h (clock i)).
  Notation rrun := (race_run prof sched name mem).
  Implicit Types r : race M world.

  Lemma step_of_0 i c ts (e : event M) :
    step_of prof sched name 0 i c ts e = ev_prog (prof i) (sched i) (name i) c ts e.
  Proof. by destruct e. Qed.
  Lemma rrun_app r xs ys : rrun r (xs ++ ys) = rrun (rrun r xs) ys.
  Proof. apply fold_left_app. Qed.

  (** A handler whose calls are calls of process i, some of them failing. *)
  Context (i : nat) {W : Type} (H : handler W) (π : W → world).
  Context (HH : ∀ X e w, ∃ f, (π (H X e w).1, (H X e w).2) = call_h mem i f X e (π w)).

  Definition busy r (c : wq_config) ts a e (p : prog step_result) : race M world :=
    put r i (Proc c ts a (Some (e, p))).
  Definition at_world (w : world) r : race M world := Race w (r_procs r) (r_runs r) (r_answers r).
  Lemma step_call r c ts a e X (e' : eff X) k w p0 :
    r_procs r !! i = Some p0 →
    ∃ f, race_step prof sched name mem (at_world (π w) (busy r c ts a e (Eff e' k))) (RCall i f) =
      at_world (π (H X e' w).1) (busy r c ts a e (k (H X e' w).2)).
  Proof using HH.
    intros Hp. destruct (HH X e' w) as [f E]. exists f. cbn.
    rewrite list_lookup_insert by by eapply lookup_lt_Some.
    unfold race_call. cbn. rewrite <-E. unfold at_world. cbn. by rewrite list_insert_insert.
  Qed.
  Lemma some_calls n r c ts a e p p0 w :
    r_procs r !! i = Some p0 →
    ∃ xs p', rrun (at_world (π w) (busy r c ts a e p)) xs =
      at_world (π (run_n H n p w)) (busy r c ts a e p').
  Proof using HH.
    intros Hp. revert p w. induction n as [|n IH]; intros p w; [by exists [], p|].
    destruct p as [x| | |X e' k]; try (by eexists [], _).
    destruct (step_call r c ts a e X e' k w p0 Hp) as [f E]. cbn [run_n].
    destruct (H X e' w) as [w' x] eqn:EH. destruct (IH (k x) w') as (xs & p' & Exs).
    exists (RCall i f :: xs), p'. cbn [fst snd] in E. rewrite <-Exs, <-E. done.
  Qed.
  Definition after_run r c (o : outcome step_result) (e : event M) : race M world :=
    match o with
    | Done (c', ts', js, x) =>
        Race (r_world r) (<[i := Proc c' ts' true None]> (r_procs r)) (r_runs r ++ map (pair i) js)
          (r_answers r ++ [(i, e, x)])
    | _ => put r i (Proc c [] false None)
    end.
  Lemma all_calls r c ts a e p p0 w :
    r_procs r !! i = Some p0 →
    ∃ xs, rrun (at_world (π w) (busy r c ts a e p)) xs =
      at_world (π (run H p w).1) (after_run r c (run H p w).2 e).
  Proof using HH.
    intros Hp. revert w. induction p as [x| | |X e' k IH]; intros w.
    - exists [RCall i FOk]. cbn. rewrite list_lookup_insert by by eapply lookup_lt_Some.
      unfold race_call. cbn. destruct x as [[[c' ts'] js] x]. unfold at_world. cbn. by rewrite list_insert_insert.
    - exists [RCall i FOk]. cbn. rewrite list_lookup_insert by by eapply lookup_lt_Some.
      unfold race_call, put, gone, at_world. cbn. by rewrite list_insert_insert.
    - exists [RCall i FOk]. cbn. rewrite list_lookup_insert by by eapply lookup_lt_Some.
      unfold race_call, put, gone, at_world. cbn. by rewrite list_insert_insert.
    - destruct (step_call r c ts a e X e' k w p0 Hp) as [f E]. cbn [run].
      destruct (H X e' w) as [w' x] eqn:EH. cbn [fst snd] in E. destruct (IH x w') as [xs Exs].
      exists (RCall i f :: xs). rewrite <-Exs, <-E. done.
  Qed.
  (** What another component sees of a step of process i. *)
  Definition same_step r (s : sys W M) r' (s' : sys W M) : Prop :=
    r_world r' = π (sw s') ∧ r_procs r' = <[i := Proc (cfg s') (tasks s') (alive s') None]> (r_procs r) ∧
    ∃ js, runs s' = runs s ++ js ∧ r_runs r' = r_runs r ++ map (pair i) js.
  Lemma whole_step r (s : sys W M) e :
    r_world r = π (sw s) → r_procs r !! i = Some (Proc (cfg s) (tasks s) (alive s) None) →
    ∃ xs, same_step r s (rrun r xs) (sys_step (prof i) (sched i) (name i) H s e).1.
  Proof using HH.
    intros Hw Hp.
    assert (∀ (s' : sys W M), sw s' = sw s → cfg s' = cfg s → tasks s' = tasks s → alive s' = alive s → runs s' = runs s →
      ∃ xs, same_step r s (rrun r xs) s') as Hnop.
    { intros s' E1 E2 E3 E4 E5. exists []. split; [cbn; congruence|]. split.
      - cbn. rewrite list_insert_id; [done|]. congruence.
      - exists []. cbn. by rewrite !app_nil_r. }
    assert (∀ xs w a ts, rrun r xs = at_world w (put r i (Proc (cfg s) ts a None)) → a = false → ts = [] →
      ∀ s' : sys W M, π (sw s') = w → cfg s' = cfg s → tasks s' = [] → alive s' = false → runs s' = runs s →
      same_step r s (rrun r xs) s') as Hdie.
    { intros xs w a ts E -> -> s' E1 E2 E3 E4 E5. rewrite E. split; [done|]. split; [cbn; by rewrite E2, E3, E4|].
      exists []. cbn. by rewrite !app_nil_r. }
    assert (∀ s' : sys W M, sw s' = sw s → cfg s' = cfg s → tasks s' = [] → alive s' = false → runs s' = runs s →
      ∃ xs, same_step r s (rrun r xs) s') as Hdead.
    { intros s' E1 E2 E3 E4 E5. exists [RDie i]. apply (Hdie _ (π (sw s)) false []); try done; [|congruence].
      cbn. rewrite Hp. unfold put, gone, at_world. cbn. by rewrite <-Hw. }
    assert (∀ e' a, rrun r [RBegin i e' 0] = at_world (π (sw s)) (busy r (cfg s) (tasks s) a e' (ev_prog (prof i) (sched i) (name i) (cfg s) (tasks s) e')) →
      ∃ xs, same_step r s (rrun r xs) (commit (prof i) (sched i) (name i) H s e').1) as Hcommit.
    { intros e' a Eb.
      destruct (all_calls r (cfg s) (tasks s) a e' (ev_prog (prof i) (sched i) (name i) (cfg s) (tasks s) e') _ (sw s) Hp)
        as [xs E]. exists (RBegin i e' 0 :: xs).
      change (rrun r (RBegin i e' 0 :: xs)) with (rrun (rrun r [RBegin i e' 0]) xs). rewrite Eb, E. unfold commit.
      destruct (run H _ (sw s)) as [w' [[[[c ts] js] x]| |]]; cbn.
      - split; [done|]. split; [done|]. by exists js.
      - split; [done|]. split; [done|]. exists []. by rewrite !app_nil_r.
      - split; [done|]. split; [done|]. exists []. by rewrite !app_nil_r. }
    assert (∀ e' a n, rrun r [RBegin i e' 0] = at_world (π (sw s)) (busy r (cfg s) (tasks s) a e' (ev_prog (prof i) (sched i) (name i) (cfg s) (tasks s) e')) →
      ∃ xs, same_step r s (rrun r xs) (Sys (run_n H n (ev_prog (prof i) (sched i) (name i) (cfg s) (tasks s) e') (sw s)) (cfg s) [] false (runs s))) as Hcut.
    { intros e' a n Eb.
      destruct (some_calls n r (cfg s) (tasks s) a e' (ev_prog (prof i) (sched i) (name i) (cfg s) (tasks s) e') _ (sw s) Hp)
        as (xs & p' & E). exists (RBegin i e' 0 :: xs ++ [RDie i]).
      eapply (Hdie _ _ false []); try done.
      change (rrun r (RBegin i e' 0 :: xs ++ [RDie i])) with (rrun (rrun r [RBegin i e' 0]) (xs ++ [RDie i])).
      rewrite Eb, rrun_app, E. cbn. rewrite list_lookup_insert by by eapply lookup_lt_Some.
      unfold put, gone, at_world. cbn. by rewrite list_insert_insert. }
    unfold sys_step. destruct (alive s) eqn:Ea.
    - assert (∀ e', match e' with EvStart | EvPanic | EvCrash | EvCrashIn _ _ => False | _ => True end →
        rrun r [RBegin i e' 0] = at_world (π (sw s)) (busy r (cfg s) (tasks s) true e' (ev_prog (prof i) (sched i) (name i) (cfg s) (tasks s) e'))) as Hb.
      { intros e' He. cbn. rewrite Hp. unfold race_begin. cbn. unfold at_world, busy, put. cbn. rewrite <-Hw.
        destruct e'; done. }
      destruct e as [| | | | | | | | |e' n|]; try (apply (Hcommit _ true), Hb; exact Logic.I); try (by apply Hdead); try (by apply Hnop).
      destruct e'; try (eapply Hcut; apply Hb; exact Logic.I); cbn [run_n ev_prog]; apply Hdead; try done; destruct n; done.
    - assert (rrun r [RBegin i EvStart 0] = at_world (π (sw s)) (busy r (cfg s) (tasks s) false EvStart (ev_prog (prof i) (sched i) (name i) (cfg s) (tasks s) EvStart))) as Hb.
      { cbn. rewrite Hp. unfold race_begin. cbn. unfold at_world, busy, put. cbn. by rewrite <-Hw. }
      destruct e as [| | | | | | | | |e' n|]; try (by apply Hnop); [|by eapply Hcommit].
      destruct e'; try (by apply Hnop). by eapply Hcut.
  Qed.
End sim.

Section include.
  Context {M : Type} `{SM : Serde M}.
  Context (prof : nat → profile).
  Context (sched : nat → string → option (time → option time)).
  Context (clock : nat → nat → time).
  Lemma call_faulty i faults X (e : eff X) w :
    ∃ f, (fw (faulty_h (clock i) faults X e w).1, (faulty_h (clock i) faults X e w).2) =
      call_h (λ i, mem_h (clock i)) i f X e (fw w).
  Proof.
    exists (faults (ops w)). unfold faulty_h, call_h. destruct (mem_h (clock i) X e (fw w)) as [w' x] eqn:E.
    destruct (fail_ans e); [destruct (faults (ops w))|]; cbn; try done; rewrite E; done.
  Qed.
  Lemma call_mem i X (e : eff X) w :
    ∃ f, ((mem_h (clock i) X e w).1, (mem_h (clock i) X e w).2) = call_h (λ i, mem_h (clock i)) i f X e w.
  Proof. exists FOk. unfold call_h. destruct (fail_ans e); by destruct (mem_h _ _ _ _). Qed.

  (** One process with failing calls and crashes. *)
  Lemma race_one name faults (es : list (event M)) :
    ∃ xs,
      let s := fafter (prof 0%nat) (sched 0%nat) name (clock 0%nat) faults es in
      let r := race_after prof sched (λ _, name) clock 1 xs in
      r_world r = fw (sw s) ∧ r_procs r = [Proc (cfg s) (tasks s) (alive s) None] ∧
      map snd (r_runs r) = runs s.
  Proof.
    cbv zeta. induction es as [|e es IH] using rev_ind; [by exists []|].
    destruct IH as (xs & H1 & H2 & H3). unfold fafter, sys_run in *. rewrite fold_left_app. cbn [fold_left].
    set (s := fold_left _ es _) in *.
    destruct (whole_step prof sched (λ _, name) clock 0 (faulty_h (clock 0%nat) faults) fw (call_faulty 0 faults)
      (race_after prof sched (λ _, name) clock 1 xs) s e) as (ys & G1 & G2 & js & G3 & G4); [done|by rewrite H2|].
    exists (xs ++ ys). unfold race_after in *. rewrite rrun_app. split; [done|]. split; [by rewrite G2, H2|].
    rewrite G4, G3, map_app, H3, map_map. f_equal. cbn. by rewrite map_id.
  Qed.

  (** Processes whose steps take turns. *)
  Lemma race_fleet name n (es : list (nat * event M)) :
    ∃ xs,
      let f := fleet_after prof sched name clock n es in
      let r := race_after prof sched (λ _, name) clock n xs in
      r_world r = f_world f ∧
      r_procs r = map (λ m, Proc (m_cfg m) (m_tasks m) (m_alive m) None) (f_members f) ∧
      map snd (r_runs r) = f_runs f.
  Proof.
    cbv zeta. induction es as [|[i e] es IH] using rev_ind.
    { exists []. cbn. split; [done|]. split; [|done]. induction n as [|n IH]; [done|]. cbn. by f_equal. }
    destruct IH as (xs & H1 & H2 & H3). unfold fleet_after, fleet_run in *. rewrite fold_left_app. cbn [fold_left].
    set (f := fold_left _ es _) in *. unfold fleet_step. cbn [fst snd].
    destruct (f_members f !! i) as [m|] eqn:Em; [|by exists xs].
    destruct (whole_step prof sched (λ _, name) clock i (mem_h (clock i)) (λ w, w) (call_mem i)
      (race_after prof sched (λ _, name) clock n xs) (seen_by f m) e) as (ys & G1 & G2 & js & G3 & G4).
    { done. }
    { rewrite H2. by rewrite list_lookup_fmap, Em. }
    exists (xs ++ ys). unfold race_after in *. rewrite rrun_app. cbn zeta.
    set (s' := (sys_step _ _ _ _ _ _).1) in *. split; [done|]. split.
    - rewrite G2, H2. cbn. by rewrite (list_fmap_insert _ _ i (Member _ _ _)).
    - cbn. rewrite G4, G3, map_app, H3, map_map. f_equal. cbn. by rewrite map_id.
  Qed.
End include.

(** Redis. *)
Lemma conf_portable {M} `{SM : Serde M} {A} name (p : prog A) (Q : A → Prop) :
  conf (M := M) (lists_of name) (λ _, True) p Q → portable (list_key name) p → portable any_list p.
Proof.
  induction p as [a| | |X e k IH]; try done. intros [Hw Hc] [Hp Hk]. split; [by eapply portable_any|].
  intros x. apply IH; [|apply Hk]. apply Hc. destruct e; try done; cbn.
  - destruct x as [ids|]; [|done]. by apply list.Forall_forall.
  - destruct x as [ids|]; [|done]. by apply list.Forall_forall.
  - by destruct x as [[v|]|].
Qed.

Section redis.
  Context {M : Type} `{SM : Serde M}.
  Context (prof : nat → profile).
  Context (sched : nat → string → option (time → option time)).
  Context (name : nat → string).
  Context (clock : nat → nat → time).
  Notation mem := (λ i, mem_h (clock i)).
  Notation red := (λ i, redis_h (clock i)).

  Lemma all_jobs (ts : list (task M)) : Forall (tj (λ _, True)) ts.
  Proof. by apply list.Forall_forall. Qed.
  Lemma port_do_tick fuel i c (ts : list (task M)) : portable any_list (do_tick prof name fuel i c ts).
  Proof.
    apply portable_bind; [|done]. apply portable_bind; [split; [apply queue_key_not_storage|done]|]. intros r. cbv zeta.
    destruct (_ <=? _)%nat; [done|]. apply portable_bind; [split; [apply queue_key_not_storage|done]|]. intros [len|]; [|done].
    apply (conf_portable (M := M) (name i) _ (λ _, True)); [|apply port_loop].
    eapply conf_mono; [|by apply conf_pick_loop]. done.
  Qed.
  Lemma port_step_of fuel i c ts (e : event M) : portable any_list (step_of prof sched name fuel i c ts e).
  Proof.
    assert (portable any_list (ev_prog (prof i) (sched i) (name i) c ts e)) as H.
    { eapply (conf_portable (M := M) (name i)); [|apply port_event]. apply conf_ev_prog; [apply all_jobs|].
      induction e; done. }
    destruct e; try exact H; (apply portable_bind; [apply port_do_tick|done]).
  Qed.

  Definition same_race (r : race M world) (r' : race M rworld) : Prop :=
    redis_rel any_list (r_world r) (r_world r') ∧ r_procs r = r_procs r' ∧ r_runs r = r_runs r' ∧
    r_answers r = r_answers r' ∧
    ∀ i p e q, r_procs r !! i = Some p → p_now p = Some (e, q) → portable any_list q.
  Lemma call_same i f X (e : eff X) w r :
    portable_call any_list e → redis_rel any_list w r →
    (call_h mem i f X e w).2 = (call_h red i f X e r).2 ∧
    redis_rel any_list (call_h mem i f X e w).1 (call_h red i f X e r).1.
  Proof.
    intros He Hr. destruct (redis_sim any_list any_list_dec (clock i) X e w r He Hr) as [E1 E2].
    unfold call_h. destruct (fail_ans e), f; done.
  Qed.
  Lemma same_race_step r r' x :
    same_race r r' → same_race (race_step prof sched name mem r x) (race_step prof sched name red r' x).
  Proof.
    intros (Hw & Hp & Hr & Ha & Hq).
    assert (∀ i p, (∀ e q, p_now p = Some (e, q) → portable any_list q) → same_race (put r i p) (put r' i p)) as Hput.
    { intros i p Hi. split; [done|]. split; [by cbn; rewrite Hp|]. split; [done|]. split; [done|].
      intros k p' e q. cbn. destruct (decide (k = i)) as [->|Hne].
      - intros H. apply list_lookup_insert_Some in H as [(_ & <- & _)|(Hne & _)]; [apply Hi|done].
      - rewrite list_lookup_insert_ne by done. apply Hq. }
    assert (same_race r r') as Hsame by done.
    destruct x as [i e fuel|i f|i]; cbn [race_step]; rewrite <-Hp; (destruct (r_procs r !! i) as [p|] eqn:Ei; [|done]).
    - apply Hput. intros e' q Enow. unfold race_begin in Enow. destruct (p_now p) as [[]|] eqn:Ep.
      { rewrite Ep in Enow. injection Enow as <- <-. by eapply Hq. }
      destruct (p_alive p); destruct e; cbn [p_now gone] in Enow; try congruence;
        (assert (q = step_of prof sched name fuel i (p_cfg p) (p_tasks p) e') as -> by congruence); apply port_step_of.
    - unfold race_call. destruct (p_now p) as [[e q]|] eqn:Ep; [|done].
      pose proof (Hq i p e q Ei Ep) as Hport. destruct q as [[[[c ts] js] a]| | |X e' k]; try (by apply Hput).
      + split; [done|]. cbn. rewrite Hp, Hr, Ha. split; [done|]. split; [done|]. split; [done|].
        intros k p' e' q H. apply list_lookup_insert_Some in H as [(_ & <- & _)|(Hne & H)]; [done|].
        rewrite <-Hp in H. by apply (Hq k).
      + destruct Hport as [He Hk]. destruct (call_same i f X e' _ _ He Hw) as [E1 E2].
        destruct (call_h mem i f X e' (r_world r)) as [w x]. destruct (call_h red i f X e' (r_world r')) as [w' x'].
        cbn in E1, E2. subst x'. split; [done|]. cbn. rewrite Hp, Hr, Ha. split; [done|]. split; [done|]. split; [done|].
        intros k' p' e'' q H. apply list_lookup_insert_Some in H as [(_ & <- & _)|(Hne & H)].
        * cbn. intros [= <- <-]. apply Hk.
        * rewrite <-Hp in H. by apply (Hq k').
    - by apply Hput.
  Qed.
  Lemma race_redis n (xs : list (race_event M)) :
    let r := race_after prof sched name clock n xs in
    let r' := race_run prof sched name red (race_init rworld_empty n) xs in
    (r_procs r' = r_procs r ∧ r_runs r' = r_runs r ∧ r_answers r' = r_answers r) ∧
    (∀ q s, rlist (keys (r_world r')) (format_queue_name q s) = Some (qlist q (r_world r) s)) ∧
    (∀ id c, (redis_h c _ (SGet STORAGE_HASH id) (r_world r')).2 = (mem_h c _ (SGet STORAGE_HASH id) (r_world r)).2).
  Proof.
    cbv zeta.
    assert (same_race (race_after prof sched name clock n xs) (race_run prof sched name red (race_init rworld_empty n) xs))
      as (H0 & H1 & H2 & H3 & _).
    2:{ split; [done|]. split.
        - intros q s. apply (proj1 H0). exact (queue_key_not_storage q s).
        - intros id c. destruct (redis_sim any_list any_list_dec c _ (SGet STORAGE_HASH id) _ _ ltac:(by cbn; unfold any_list; intros []) H0) as [E _].
          by rewrite E. }
    induction xs as [|x xs IH] using rev_ind.
    - split; [apply (redis_rel_empty any_list)|]. split; [done|]. split; [done|]. split; [done|].
      intros i p e q H. cbn in H. apply elem_of_list_lookup_2, elem_of_list_In, repeat_spec in H. by subst p.
    - unfold race_after, race_run in *. rewrite !fold_left_app. cbn [fold_left]. by apply same_race_step.
  Qed.
End redis.
