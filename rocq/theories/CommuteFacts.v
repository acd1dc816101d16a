(** Operations on different jobs commute. *)
From Verif Require Import SpecFrame JsonFacts BackendFacts WorldFacts MultiFacts FrameFacts.

(** The calls a program makes, one after the other. *)
Definition some_call := {X : Set & eff X}.
Section trace.
  Context (now : time).
  Notation h := (mem_h (λ _, now)).
  Fixpoint trace {A} (p : prog A) (w : world) : list some_call :=
    match p with
    | Eff e k => existT _ e :: trace (k (h _ e w).2) (h _ e w).1
    | _ => []
    end.
  Definition do1 (w : world) (c : some_call) : world := (h _ (projT2 c) w).1.
  Definition do_all (cs : list some_call) (w : world) : world := fold_left do1 cs w.
  Lemma run_trace {A} (p : prog A) w : (run h p w).1 = do_all (trace p w) w.
  Proof.
    revert w. induction p as [a| | |X e k IH]; intros w; [done..|]. cbn [run trace do_all fold_left].
    unfold do1 at 2. cbn [projT1 projT2]. destruct (h X e w) as [w' x]. apply IH.
  Qed.
  Definition local (ids rd : list string) (c : some_call) : Prop := touch ids rd (projT2 c).
  Lemma touches_trace ids rd {A} (p : prog A) w : touches ids rd p → Forall (local ids rd) (trace p w).
  Proof.
    revert w. induction p as [a| | |X e k IH]; intros w Hp; [constructor..|]. destruct Hp as [He Hk].
    constructor; [done|]. by apply IH.
  Qed.

  (** What a call of this kind does. *)
  Definition put (c : some_call) : option (string * string * value) :=
    match projT2 c with SUpsert hash k v => Some (hash, k, v) | _ => None end.
  Definition on_list (c : some_call) (q : string) (l : list string) : list string :=
    match projT2 c with
    | QPush q' x => if String.eqb q q' then x :: l else l
    | QRemove q' x => if String.eqb q q' then filter (λ y, y ≠ x) l else l
    | _ => l
    end.
  Definition said (c : some_call) : list msg := match projT2 c with Send m => [m] | _ => [] end.
  Definition read (c : some_call) : nat := match projT2 c with Now => 1%nat | _ => 0%nat end.
  Definition after_put (c : some_call) hash id (o : option value) : option value :=
    match put c with
    | Some (hash', id', v) => if String.eqb hash hash' && String.eqb id id' then Some v else o
    | None => o
    end.
  Lemma do1_is ids rd c w : local ids rd c →
    (∀ hash id, mem_sget (st (do1 w c)) hash id = after_put c hash id (mem_sget (st w) hash id)) ∧
    (∀ q, ql (st (do1 w c)) q = on_list c q (ql (st w) q)) ∧
    log (do1 w c) = log w ++ said c ∧ reads (do1 w c) = (reads w + read c)%nat.
  Proof.
    destruct c as [X e]. unfold local, do1, after_put, put, on_list, said, read. cbn [projT2]. intros He.
    destruct e as [q it|f t m fd td|q it|q m d|q|hash key v|hash key| |m]; cbn in *; try done;
      rewrite ?app_nil_r, ?Nat.add_0_r, ?Nat.add_1_r; try done.
    - split; [intros; unfold mem_sget; cbn [st set_st]; by rewrite mem_push_storages|]. split; [|done].
      intros q'. rewrite mem_push_ql. unfold upd. by destruct (String.eqb_spec q' q) as [->|].
    - split; [intros; unfold mem_sget; cbn [st set_st]; by rewrite mem_remove_storages|]. split; [|done].
      intros q'. rewrite mem_remove_ql. unfold upd. by destruct (String.eqb_spec q' q) as [->|].
    - split; [intros hash' id; by rewrite mem_upsert_sget|]. split; [|done].
      intros q. unfold ql. by rewrite mem_upsert_queues.
  Qed.

  Definition same (w1 w2 : world) : Prop :=
    (∀ hash id, mem_sget (st w1) hash id = mem_sget (st w2) hash id) ∧
    (∀ q, ql (st w1) q ≡ₚ ql (st w2) q) ∧ log w1 ≡ₚ log w2 ∧ reads w1 = reads w2.
  Lemma same_refl w : same w w.
  Proof. done. Qed.
  Lemma same_trans w1 w2 w3 : same w1 w2 → same w2 w3 → same w1 w3.
  Proof.
    intros (A1&A2&A3&A4) (B1&B2&B3&B4). split; [intros; by rewrite A1|]. split; [intros; by rewrite A2|].
    split; [by rewrite A3|by rewrite A4].
  Qed.
  Lemma same_sym w1 w2 : same w1 w2 → same w2 w1.
  Proof. intros (A1&A2&A3&A4). done. Qed.
  Lemma on_list_perm c q l l' : l ≡ₚ l' → on_list c q l ≡ₚ on_list c q l'.
  Proof.
    intros H. unfold on_list. destruct (projT2 c); try done; destruct (String.eqb _ _); try done; by rewrite H.
  Qed.
  Lemma do1_same ids rd c w1 w2 : local ids rd c → same w1 w2 → same (do1 w1 c) (do1 w2 c).
  Proof.
    intros Hc (A1&A2&A3&A4). destruct (do1_is ids rd c w1 Hc) as (B1&B2&B3&B4).
    destruct (do1_is ids rd c w2 Hc) as (C1&C2&C3&C4).
    split; [intros; by rewrite B1, C1, A1|]. split; [intros q; rewrite B2, C2; by apply on_list_perm|].
    split; [by rewrite B3, C3, A3|by rewrite B4, C4, A4].
  Qed.
  Lemma do_all_same ids rd cs w1 w2 : Forall (local ids rd) cs → same w1 w2 → same (do_all cs w1) (do_all cs w2).
  Proof.
    revert w1 w2. induction cs as [|c cs IH]; intros w1 w2 Hc H; [done|]. apply Forall_cons_1 in Hc as [Hc1 Hc].
    cbn. apply IH; [done|]. by eapply do1_same.
  Qed.

  Section two.
    Context (ids1 rd1 ids2 rd2 : list string).
    Context (Hd : ∀ id, id ∈ ids1 → id ∉ ids2).
    Lemma filter_swap (x y : string) (l : list string) :
      filter (λ z, z ≠ x) (filter (λ z, z ≠ y) l) = filter (λ z, z ≠ y) (filter (λ z, z ≠ x) l).
    Proof. rewrite !list_filter_filter. apply list_filter_iff. intros z. tauto. Qed.
    Lemma swap1 c1 c2 w : local ids1 rd1 c1 → local ids2 rd2 c2 → same (do1 (do1 w c1) c2) (do1 (do1 w c2) c1).
    Proof.
      intros H1 H2. destruct (do1_is _ _ c1 w H1) as (A1&A2&A3&A4). destruct (do1_is _ _ c2 w H2) as (B1&B2&B3&B4).
      destruct (do1_is _ _ c2 (do1 w c1) H2) as (C1&C2&C3&C4). destruct (do1_is _ _ c1 (do1 w c2) H1) as (D1&D2&D3&D4).
      split; [|split; [|split]].
      - intros hash id. rewrite C1, A1, D1, B1. unfold local in H1, H2. unfold after_put, put.
        destruct (projT2 c1) as [| | | | |h1 k1 v1| | |]; try done; destruct (projT2 c2) as [| | | | |h2 k2 v2| | |]; try done.
        cbn in H1, H2. destruct (String.eqb_spec id k1) as [->|]; rewrite ?andb_false_r; [|done].
        destruct (String.eqb_spec k1 k2) as [->|]; rewrite ?andb_false_r; [|done]. by destruct (Hd k2).
      - intros q. rewrite C2, A2, D2, B2. unfold local in H1, H2. unfold on_list.
        destruct (projT2 c1) as [q1 x1| |q1 x1| | | | | |]; try done; destruct (projT2 c2) as [q2 x2| |q2 x2| | | | | |];
          try done; cbn in H1, H2; destruct (String.eqb q q1); try done; destruct (String.eqb q q2); try done.
        + apply Permutation_swap.
        + rewrite filter_cons_True; [done|]. intros ->. by apply (Hd x2).
        + rewrite filter_cons_True; [done|]. intros ->. by apply (Hd x1).
        + by rewrite filter_swap.
      - rewrite C3, A3, D3, B3, <- !(assoc_L (++)). by rewrite (comm (++) (said c1)).
      - rewrite C4, A4, D4, B4. lia.
    Qed.
    Lemma swap2 c1 cs2 w : local ids1 rd1 c1 → Forall (local ids2 rd2) cs2 →
      same (do_all cs2 (do1 w c1)) (do1 (do_all cs2 w) c1).
    Proof.
      intros H1. revert w. induction cs2 as [|c2 cs2 IH]; intros w H2; [done|]. apply Forall_cons_1 in H2 as [H2 H3].
      cbn. eapply same_trans; [|by apply IH]. eapply do_all_same; [done|]. by apply swap1.
    Qed.
    Lemma swap_all cs1 cs2 w : Forall (local ids1 rd1) cs1 → Forall (local ids2 rd2) cs2 →
      same (do_all cs2 (do_all cs1 w)) (do_all cs1 (do_all cs2 w)).
    Proof.
      intros H1 H2. revert w. induction cs1 as [|c1 cs1 IH]; intros w; [done|]. apply Forall_cons_1 in H1 as [H1 H3].
      cbn. eapply same_trans; [by apply IH|]. eapply do_all_same; [done|]. by apply swap2.
    Qed.
  End two.

  (** The same calls, with the same answers, in a world with the same records of [rd]. *)
  Definition agree (rd : list string) (w1 w2 : world) : Prop :=
    ∀ hash id, id ∈ rd → mem_sget (st w1) hash id = mem_sget (st w2) hash id.
  Lemma agree_call ids rd (X : Set) (e : eff X) w1 w2 : touch ids rd e → agree rd w1 w2 →
    (h _ e w1).2 = (h _ e w2).2 ∧ agree rd (h _ e w1).1 (h _ e w2).1.
  Proof.
    intros He Ha. split.
    - destruct e; cbn in *; try done. by rewrite Ha.
    - intros hash id Hid. pose proof (do1_is ids rd (existT _ e) w1 He) as (A&_).
      pose proof (do1_is ids rd (existT _ e) w2 He) as (B&_). unfold do1 in A, B. cbn [projT2] in A, B.
      rewrite A, B. by rewrite Ha.
  Qed.
  Lemma agree_run ids rd {A} (p : prog A) w1 w2 : Forall (local ids rd) (trace p w1) → agree rd w1 w2 →
    trace p w2 = trace p w1 ∧ (run h p w2).2 = (run h p w1).2.
  Proof.
    revert w1 w2. induction p as [a| | |X e k IH]; intros w1 w2 Hp Ha; [done..|]. cbn [trace run] in *.
    apply Forall_cons_1 in Hp as [He Hp]. destruct (agree_call ids rd X e w1 w2 He Ha) as [E1 E2].
    destruct (h X e w1) as [w1' x1]. destruct (h X e w2) as [w2' x2]. cbn in *. subst x2.
    destruct (IH x1 w1' w2' Hp E2) as [-> ->]. done.
  Qed.
  Lemma agree_do_all ids1 rd1 rd2 cs w : (∀ id, id ∈ ids1 → id ∉ rd2) → Forall (local ids1 rd1) cs → agree rd2 w (do_all cs w).
  Proof.
    intros Hd. revert w. induction cs as [|c cs IH]; intros w Hc; [done|]. apply Forall_cons_1 in Hc as [Hc1 Hc].
    intros hash id Hid. change (do_all (c :: cs) w) with (do_all cs (do1 w c)). rewrite <- (IH (do1 w c) Hc hash id Hid).
    destruct (do1_is _ _ c w Hc1) as (A&_). rewrite A. unfold after_put, put. unfold local in Hc1.
    destruct (projT2 c) as [| | | | |h' k v| | |]; try done. cbn in Hc1.
    destruct (String.eqb_spec id k) as [->|]; [|by rewrite andb_false_r]. by destruct (Hd k).
  Qed.

  (** Two programs on different jobs. *)
  Lemma two_programs {A B} ids1 rd1 ids2 rd2 (p1 : prog A) (p2 : prog B) w :
    Forall (local ids1 rd1) (trace p1 w) → Forall (local ids2 rd2) (trace p2 w) →
    (∀ id, id ∈ ids1 → id ∉ ids2) → (∀ id, id ∈ ids1 → id ∉ rd2) → (∀ id, id ∈ ids2 → id ∉ rd1) →
    (run h p2 (run h p1 w).1).2 = (run h p2 w).2 ∧
    (run h p1 (run h p2 w).1).2 = (run h p1 w).2 ∧
    same (run h p2 (run h p1 w).1).1 (run h p1 (run h p2 w).1).1.
  Proof.
    intros H1 H2 D D1 D2. rewrite !(run_trace p1 w), !(run_trace p2 w), !run_trace.
    pose proof (agree_do_all ids1 rd1 rd2 _ w D1 H1) as G1. pose proof (agree_do_all ids2 rd2 rd1 _ w D2 H2) as G2.
    destruct (agree_run ids2 rd2 p2 w _ H2 G1) as [-> ->]. destruct (agree_run ids1 rd1 p1 w _ H1 G2) as [-> ->].
    split; [done|]. split; [done|]. eapply swap_all; [exact D|exact H1|exact H2].
  Qed.
End trace.

Section commute.
  Context {M : Type} `{SM : Serde M}.
  Context (prof : profile).
  Context (sched : string → option (time → option time)).
  Context (name : string).
  Context (now : time).
  Notation h := (mem_h (λ _, now)).
  Notation step := (sys_step prof sched name h).
  Notation outcome := (response M * option (option (task M)) * list (job M))%type.

  (** The part of an event that uses the backend. *)
  Definition core (o : option (task M)) (e : event M) : prog outcome :=
    match e with
    | EvEnqueue j ec => let! r := run_with_config name j ec in Ret (RUnit r, None, [])
    | EvCancel id => let! r := cancel_job (M := M) name id in Ret (RUnit r, None, [])
    | EvGet id =>
        let! r := get_job id in Ret (RJob (match r with Ok o => o | Err _ => None end), None, [])
    | EvRetry id => let! r := retry_job (M := M) name id in Ret (RBool r, None, [])
    | EvConfig c' => Ret (RUnit (Ok tt), None, [])
    | EvTask i u =>
        match o with
        | None => Ret (RNone, None, [])
        | Some t => let! '(o, js) := task_step prof sched name t u in Ret (RNone, Some o, js)
        end
    | _ => Panic
    end.
  Definition task_at (ts : list (task M)) (e : event M) : option (task M) :=
    match e with EvTask i _ => ts !! i | _ => None end.
  Definition new_cfg (c : wq_config) (e : event M) : wq_config := match e with EvConfig c' => c' | _ => c end.
  Definition new_tasks (ts : list (task M)) (e : event M) (x : option (option (task M))) : list (task M) :=
    match e, x with
    | EvTask i _, Some (Some t') => <[i := t']> ts
    | EvTask i _, Some None => delete i ts
    | _, _ => ts
    end.
  Definition lives (e : event M) : bool :=
    match e with EvTick | EvStart | EvPanic | EvCrash | EvCrashIn _ _ => false | _ => true end.
  Lemma ev_core c ts e w : lives e = true →
    run h (ev_prog prof sched name c ts e) w =
      (let (w', o) := run h (core (task_at ts e) e) w in
      (w', match o with
           | Done (r, x, js) => Done (new_cfg c e, new_tasks ts e x, js, r)
           | Panicked => Panicked | Diverged => Diverged
           end)) ∧
    trace now (ev_prog prof sched name c ts e) w = trace now (core (task_at ts e) e) w.
  Proof.
    assert (∀ A B C (p : prog A) (f : A → B) (g : A → C), 
      trace now (let! x := p in Ret (f x)) w = trace now (let! x := p in Ret (g x)) w) as Ht.
    { intros A B C p f g. revert w. induction p as [a| | |X e' k IH]; intros w; [done..|]. cbn. by rewrite IH. }
    intros He. destruct e as [j ec|id|id|id|c'| |i u| | |e m|]; try done; cbn [ev_prog core task_at].
    - split; [|apply Ht]. rewrite !run_bind'. by destruct (run h _ w) as [? [?| |]].
    - split; [|apply Ht]. rewrite !run_bind'. by destruct (run h _ w) as [? [?| |]].
    - split; [|apply Ht]. rewrite !run_bind'. by destruct (run h _ w) as [? [?| |]].
    - destruct (ts !! i) as [t|]; [|done]. split.
      + rewrite !run_bind'. by destruct (run h _ w) as [? [[[?|] ?]| |]].
      + generalize (task_step prof sched name t u). intros p. clear Ht. revert w.
        induction p as [[[?|] ?]| | |X e' k IH]; intros w; [done..|]. cbn. by rewrite IH.
  Qed.
  (** A step, in terms of its core. *)
  Lemma step_core s e : lives e = true → alive s = true →
    step s e =
      let (w', o) := run h (core (task_at (tasks s) e) e) (sw s) in
      match o with
      | Done (r, x, js) => (Sys w' (new_cfg (cfg s) e) (new_tasks (tasks s) e x) true (runs s ++ js), r)
      | _ => (Sys w' (cfg s) [] false (runs s), RNone)
      end.
  Proof.
    intros He Ha. unfold sys_step. rewrite Ha.
    assert (commit prof sched name h s e = let (w', o) := run h (core (task_at (tasks s) e) e) (sw s) in
      match o with
      | Done (r, x, js) => (Sys w' (new_cfg (cfg s) e) (new_tasks (tasks s) e x) true (runs s ++ js), r)
      | _ => (Sys w' (cfg s) [] false (runs s), RNone)
      end) as Hc.
    { unfold commit. destruct (ev_core (cfg s) (tasks s) e (sw s) He) as [-> _].
      by destruct (run h _ (sw s)) as [w' [[[r x] js]| |]]. }
    destruct e; done.
  Qed.
  Lemma core_local (c : wq_config) ts e w : lives e = true →
    Forall (local (about w ts e) (concerns w ts e)) (trace now (core (task_at ts e) e) w).
  Proof.
    intros He. destruct (ev_core c ts e w He) as [_ <-].
    assert (about_all e = false) as Ha by (by destruct e).
    destruct (event_touches prof sched name c ts e w Ha) as [H|(key&k&->&Hr&_&H)].
    - by apply touches_trace.
    - cbn. constructor; [done|]. by apply touches_trace.
  Qed.
  Lemma about_concerns w ts e id : lives e = true → id ∈ about (M := M) w ts e → id ∈ concerns w ts e.
  Proof. intros He. destruct e; try done. by intros ?%elem_of_nil. Qed.
  Lemma two_cores ts e1 e2 w : lives e1 = true → lives e2 = true →
    (∀ id, id ∈ concerns w ts e1 → id ∉ concerns w ts e2) →
    let p1 := core (task_at ts e1) e1 in
    let p2 := core (task_at ts e2) e2 in
    (run h p2 (run h p1 w).1).2 = (run h p2 w).2 ∧
    (run h p1 (run h p2 w).1).2 = (run h p1 w).2 ∧
    same (run h p2 (run h p1 w).1).1 (run h p1 (run h p2 w).1).1.
  Proof.
    intros L1 L2 Hd. cbv zeta. pose proof (core_local wq_config_default ts e1 w L1) as H1.
    pose proof (core_local wq_config_default ts e2 w L2) as H2.
    refine (two_programs now _ _ _ _ _ _ w H1 H2 _ _ _).
    - intros id A%about_concerns B%about_concerns; try done. by apply (Hd id).
    - intros id A%about_concerns B; try done. by apply (Hd id).
    - intros id A%about_concerns B; try done. by apply (Hd id).
  Qed.
  Lemma step_lives s e : about_all e = false → alive (step s e).1 = true → lives e = true ∧ alive s = true.
  Proof.
    unfold sys_step. destruct (alive s) eqn:Ea; [by destruct e|].
    intros Hab. destruct e as [| | | | | | | | |e m|]; try done; cbn; try by rewrite Ea.
    destruct e; cbn; by rewrite ?Ea.
  Qed.

  (** What [step_core] says when the actor lives. *)
  Lemma step_done s e : about_all e = false → alive (step s e).1 = true →
    ∃ r x js, (run h (core (task_at (tasks s) e) e) (sw s)).2 = Done (r, x, js) ∧
      step s e = (Sys (run h (core (task_at (tasks s) e) e) (sw s)).1 (new_cfg (cfg s) e)
        (new_tasks (tasks s) e x) true (runs s ++ js), r).
  Proof.
    intros Ha Hl. destruct (step_lives s e Ha Hl) as [H1 H2]. revert Hl. rewrite (step_core s e H1 H2).
    destruct (run h _ (sw s)) as [w' [[[r x] js]| |]]; cbn; try done. intros _. by exists r, x, js.
  Qed.
  Lemma new_tasks_nop ts e x : (match e with EvTask _ _ => False | _ => True end) → new_tasks ts e x = ts.
  Proof. by destruct e. Qed.

  Lemma commute s e1 e2 : about_all e1 = false → about_all e2 = false →
    separate (sw s) (tasks s) e1 e2 →
    alive (step s e1).1 = true → alive (step s e2).1 = true →
    (step (step s e1).1 e2).2 = (step s e2).2 ∧ (step (step s e2).1 e1).2 = (step s e1).2 ∧
    same_but_order (step (step s e1).1 e2).1 (step (step s e2).1 e1).1.
  Proof.
    intros Ha1 Ha2 [Hd Hs] Hl1 Hl2.
    destruct (step_lives s e1 Ha1 Hl1) as [L1 La]. destruct (step_lives s e2 Ha2 Hl2) as [L2 _].
    destruct (step_done s e1 Ha1 Hl1) as (r1&x1&js1&R1&E1). destruct (step_done s e2 Ha2 Hl2) as (r2&x2&js2&R2&E2).
    destruct (two_cores (tasks s) e1 e2 (sw s) L1 L2 Hd) as (T1&T2&T3).
    assert (task_at (new_tasks (tasks s) e1 x1) e2 = task_at (tasks s) e2) as A1 by (destruct e1, e2; done).
    assert (task_at (new_tasks (tasks s) e2 x2) e1 = task_at (tasks s) e1) as A2 by (destruct e1, e2; done).
    rewrite E1, E2. cbn [fst snd]. rewrite !step_core by done. cbn [sw tasks cfg runs]. rewrite A1, A2.
    destruct (run h (core (task_at (tasks s) e2) e2) (run h (core (task_at (tasks s) e1) e1) (sw s)).1) as [w12 o12].
    destruct (run h (core (task_at (tasks s) e1) e1) (run h (core (task_at (tasks s) e2) e2) (sw s)).1) as [w21 o21].
    cbn [fst snd] in *. rewrite T1, T2, R1, R2. cbn [fst snd]. split; [done|]. split; [done|].
    destruct T3 as (S1&S2&S3&S4). unfold same_but_order. cbn [sw cfg tasks alive runs].
    split; [done|]. split; [done|]. split; [done|]. split; [done|].
    split; [destruct e1, e2; try done; cbn; by subst|].
    split; [destruct e1, e2; try done|]. split; [done|].
    rewrite <- !(assoc_L (++)). by rewrite (comm (++) js1).
  Qed.

  (** Two tasks. *)
  Lemma delete_delete {A} (l : list A) i j : (i < j)%nat → delete (pred j) (delete i l) = delete i (delete j l).
  Proof.
    revert i j. induction l as [|x l IH]; intros i j Hij; [done|]. destruct j as [|j]; [lia|]. cbn [pred].
    destruct i as [|i]; [done|]. destruct j as [|j]; [lia|]. cbn. f_equal. apply (IH i (S j)). lia.
  Qed.
  Lemma insert_delete_lt {A} (l : list A) i j y : (i < j)%nat → <[pred j := y]> (delete i l) = delete i (<[j := y]> l).
  Proof.
    revert i j. induction l as [|x l IH]; intros i j Hij; [by destruct i, j|]. destruct j as [|j]; [lia|]. cbn [pred].
    destruct i as [|i]; [done|]. destruct j as [|j]; [lia|]. cbn. f_equal. apply (IH i (S j)). lia.
  Qed.
  Lemma delete_insert_lt {A} (l : list A) i j y : (i < j)%nat → delete j (<[i := y]> l) = <[i := y]> (delete j l).
  Proof.
    revert i j. induction l as [|x l IH]; intros i j Hij; [by destruct i, j|]. destruct j as [|j]; [lia|].
    destruct i as [|i]; [done|]. cbn. f_equal. apply IH. lia.
  Qed.
  Lemma core_task i u o w r x js :
    (run h (core o (EvTask i u)) w).2 = Done (r, x, js) → (x = None ↔ o = None).
  Proof.
    cbn [core]. destruct o as [t|]; [|by intros [= <- <- <-]]. rewrite run_bind'.
    destruct (run h _ w) as [w' [[o js']| |]]; cbn; try done. by intros [= <- <- <-].
  Qed.
  Lemma commute_tasks s i u i' u' : (i < i')%nat →
    (∀ id, id ∈ concerns (sw s) (tasks s) (EvTask i u) → id ∉ concerns (sw s) (tasks s) (EvTask i' u')) →
    alive (step s (EvTask i u)).1 = true → alive (step s (EvTask i' u')).1 = true →
    let k := if (length (tasks (step s (EvTask i u)).1) <? length (tasks s))%nat then pred i' else i' in
    same_but_order (step (step s (EvTask i u)).1 (EvTask k u')).1 (step (step s (EvTask i' u')).1 (EvTask i u)).1.
  Proof.
    intros Hi Hd Hl1 Hl2 k.
    set (e1 := EvTask i u) in *. set (e2 := EvTask i' u') in *.
    destruct (step_lives s e1 eq_refl Hl1) as [_ La].
    destruct (step_done s e1 eq_refl Hl1) as (r1&x1&js1&R1&E1). destruct (step_done s e2 eq_refl Hl2) as (r2&x2&js2&R2&E2).
    destruct (two_cores (tasks s) e1 e2 (sw s) eq_refl eq_refl Hd) as (T1&T2&T3).
    pose proof (core_task _ _ _ _ _ _ _ R1) as X1. pose proof (core_task _ _ _ _ _ _ _ R2) as X2. cbn in X1, X2.
    set (ts1 := new_tasks (tasks s) e1 x1) in *. set (ts2 := new_tasks (tasks s) e2 x2) in *.
    assert (ts1 !! k = tasks s !! i' ∧ ts2 !! i = tasks s !! i ∧
      new_tasks ts1 (EvTask k u') x2 = new_tasks ts2 e1 x1) as (A1&A2&A3).
    { subst k. rewrite E1. cbn [fst tasks]. subst ts1 ts2 e1 e2. cbn [new_tasks].
      assert ((match x2 with Some (Some t') => <[i':=t']> (tasks s) | Some None => delete i' (tasks s) | None => tasks s end) !! i
        = tasks s !! i) as B.
      { destruct x2 as [[t|]|]; [|by rewrite lookup_delete_lt by lia|done]. apply list_lookup_insert_ne. lia. }
      destruct x1 as [[t1|]|]; cbv beta iota.
      - rewrite insert_length, Nat.ltb_irrefl. rewrite list_lookup_insert_ne by lia. split; [done|]. split; [done|].
        destruct x2 as [[t2|]|]; cbn; [|by rewrite delete_insert_lt|done]. by rewrite list_insert_commute by lia.
      - assert (i < length (tasks s))%nat as Hlen.
        { apply lookup_lt_is_Some. destruct (tasks s !! i) eqn:Et; [eauto|]. destruct X1 as [_ X1]. by specialize (X1 eq_refl). }
        rewrite (length_delete (tasks s) i) by (by apply lookup_lt_is_Some). rewrite (proj2 (Nat.ltb_lt _ _)) by lia.
        rewrite lookup_delete_ge by lia. replace (S (pred i')) with i' by lia. split; [done|]. split; [done|].
        destruct x2 as [[t2|]|]; cbn; [by rewrite insert_delete_lt|by rewrite delete_delete|done].
      - rewrite Nat.ltb_irrefl. split; [done|]. split; [done|]. by destruct x2 as [[t2|]|]. }
    rewrite E1, E2. cbn [fst]. rewrite !step_core by done. cbn [sw tasks cfg runs task_at].
    subst e1. cbn [task_at]. rewrite A1, A2.
    change (core (tasks s !! i') (EvTask k u')) with (core (task_at (tasks s) e2) e2).
    change (core (tasks s !! i) (EvTask i u)) with (core (task_at (tasks s) (EvTask i u)) (EvTask i u)).
    destruct (run h (core (task_at (tasks s) e2) e2) (run h (core (task_at (tasks s) (EvTask i u)) (EvTask i u)) (sw s)).1) as [w12 o12].
    destruct (run h (core (task_at (tasks s) (EvTask i u)) (EvTask i u)) (run h (core (task_at (tasks s) e2) e2) (sw s)).1) as [w21 o21].
    cbn [fst snd] in *. rewrite T1, T2, R1, R2. destruct T3 as (S1&S2&S3&S4). unfold same_but_order. cbn [fst sw cfg tasks alive runs new_cfg].
    split; [done|]. split; [done|]. split; [done|]. split; [done|]. split; [done|]. split; [exact A3|]. split; [done|].
    rewrite <- !(assoc_L (++)). by rewrite (comm (++) js1).
  Qed.
End commute.
