(** A process with several job types does on Redis what it does on the in-memory store, call by call. *)
From Verif Require Import SpecOffice MultiFacts RedisFacts RaceSim RaceFacts RaceLoop OfficeFacts SpecOfficeRedis BackendFacts WorldFacts SpecFrontRedis.
Open Scope Z_scope.

Section one.
  Context {M : Type} `{SM : Serde M}.
  Context (prof : profile).
  Context (sched : string → option (time → option time)).
  Context (name : string).
  Context (clock : nat → time).

  Lemma any_event c ts (e : event M) : portable any_list (ev_prog prof sched name c ts e).
  Proof.
    eapply (conf_portable (M := M) name); [|apply port_event]. apply conf_ev_prog; [apply all_jobs|].
    induction e; done.
  Qed.
  Lemma any_catch {A} (p : prog A) : portable any_list p → portable any_list (catch p).
  Proof. induction p as [a| | |X e k IH]; cbn; [done..|]. intros [H1 H2]. split; [done|]. intros x. by apply IH. Qed.
  Lemma any_cut {A} n (p : prog A) : portable any_list p → portable any_list (cut n p).
  Proof.
    revert p. induction n as [|n IH]; intros p; [by destruct p|]. destruct p as [a| | |X e k]; cbn; [done..|].
    intros [H1 H2]. split; [done|]. intros x. by apply IH.
  Qed.
  Lemma any_commit (s : sys unit M) e : portable any_list (commit_prog prof sched name s e).
  Proof. apply portable_bind; [apply any_catch, any_event|done]. Qed.
  Lemma any_step (s : sys unit M) e : portable any_list (step_prog prof sched name s e).
  Proof.
    unfold step_prog. destruct (alive s).
    - destruct e; try done; try apply any_commit. apply portable_bind; [|done]. destruct e; try done; apply any_cut, any_event.
    - destruct e; try done; try apply any_commit. destruct e; try done. apply portable_bind; [apply any_cut, any_event|done].
  Qed.

  (** Processes that differ in what the store holds. *)
  Definition but_store (f g : front M world) : Prop :=
    own_state (q f) = own_state (q g) ∧ reads (sw (q f)) = reads (sw (q g)) ∧ log (sw (q f)) = log (sw (q g)) ∧
    known f = known g ∧ begun f = begun g ∧ q_box f = q_box g ∧ aj_up f = aj_up g ∧ aj_box f = aj_box g ∧
    cs f = cs g ∧ trace f = trace g.
  Definition caller_event (x : fevent M) : Prop := match x with FCall _ | FGo _ | FAj => True | _ => False end.
  Notation fstep := (fstep prof sched name (mem_h clock)).
  Lemma caller_q f x : caller_event x → q (fstep f x) = q f.
  Proof. destruct x as [c|i| | | | |e| |o k]; try done; intros _; cbn [fstep]; repeat case_match; done. Qed.
  Lemma caller_but f g x : caller_event x → but_store f g → but_store (fstep f x) (fstep g x).
  Proof.
    intros Hx (H0 & Hr & Hl & H1 & H2 & H3 & H4 & H5 & H6 & H7).
    assert (alive (q f) = alive (q g)) as Ha by (by injection H0).
    split; [by rewrite !caller_q|]. split; [by rewrite !caller_q|]. split; [by rewrite !caller_q|].
    destruct f, g. cbn in *. subst.
    destruct x as [c|i| | | | |e| |o k]; try done; cbn [fstep].
    - destruct c; try (by cbn). cbn. by repeat case_match.
    - unfold mailbox_open. cbn. rewrite Ha. by repeat case_match.
    - cbn. by repeat case_match.
  Qed.
  Lemma settle_but f g o box e (s s' : sys world M) r : but_store f g →
    own_state s = own_state s' → reads (sw s) = reads (sw s') → log (sw s) = log (sw s') →
    but_store (settle f o box e s r) (settle g o box e s' r).
  Proof.
    intros (H0 & Hr & Hl & H1 & H2 & H3 & H4 & H5 & H6 & H7) Hs Hsr Hsl.
    assert (alive s = alive s') as Ha by (by injection Hs). unfold settle. rewrite Ha.
    destruct f, g. cbn in *. subst. by destruct (alive s').
  Qed.
  Lemma settle_q f o box e (s : sys world M) r : q (settle f o box e s r) = s.
  Proof. unfold settle. by destruct (alive s). Qed.
End one.

Section office.
  Context {T : Type} {TD : EqDecision T}.
  Context {M : T → Type} {SM : ∀ t, Serde (M t)}.
  Context (prof : profile).
  Context (sched : string → option (time → option time)).
  Context (name : T → string).
  Context (clock : T → nat → time).
  Notation ostep := (ostep M prof sched name clock).
  Notation rostep := (rostep M prof sched name clock).

  (** Two processes with the same of everything but the store. *)
  Definition alike (o p : office M) : Prop :=
    (∀ t, desks o t = desks p t) ∧ o_up o = o_up p ∧ o_box o = o_box p ∧ o_names o = o_names p.
  Definition ready (o : office M) : Prop := ∀ t b, d_busy (desks o t) = Some b → portable any_list (b_rest b).
  Lemma set_alike (ds ds' : ∀ t, desk M t) t d : (∀ t, ds t = ds' t) → ∀ t', set_desk M ds t d t' = set_desk M ds' t d t'.
  Proof. intros H t'. unfold set_desk. destruct (decide (t = t')); [done|apply H]. Qed.
  Lemma set_busy_ready (ds : ∀ t, desk M t) t d :
    (∀ b, d_busy d = Some b → portable any_list (b_rest b)) →
    (∀ t b, d_busy (ds t) = Some b → portable any_list (b_rest b)) →
    ∀ t' b, d_busy (set_desk M ds t d t') = Some b → portable any_list (b_rest b).
  Proof. intros H1 H2 t' b. unfold set_desk. destruct (decide (t = t')) as [<-|]; [apply H1|apply H2]. Qed.
  Lemma view_but o p t : alike o p → but_store (view M o t) (view M p t).
  Proof. intros (H1 & H2 & H3 & H4). unfold view, but_store. cbn. by rewrite H1, H2, H3. Qed.
  Lemma put_alike o p t f g b box : alike o p → but_store f g → alike (put M name o t f b box) (put M name p t g b box).
  Proof.
    intros (H1 & H2 & H3 & H4) (G0 & Gr & Gl & G1 & G2 & G3 & G4 & G5 & G6 & G7).
    unfold put, alike. cbn. rewrite G0, Gr, Gl, G1, G2, G3, G4, G6, G7, H1, H4. split; [|done]. by apply set_alike.
  Qed.
  Lemma put_ready o t f b box : ready o → (∀ b', b = Some b' → portable any_list (b_rest b')) → ready (put M name o t f b box).
  Proof. intros H Hb. unfold ready, put. cbn. by apply set_busy_ready. Qed.
  Lemma gone_alike o p : alike o p → alike (all_gone M o) (all_gone M p).
  Proof. intros (H1 & H2 & H3 & H4). unfold alike, all_gone. cbn. split; [|done]. intros t. by rewrite H1. Qed.
  Lemma set_busy_alike o p t n l b s s' : alike o p → alike (set_busy M o t n l b s) (set_busy M p t n l b s').
  Proof. intros (H1 & H2 & H3 & H4). unfold alike, set_busy. cbn. rewrite H1. split; [|done]. by apply set_alike. Qed.
  Lemma begin_alike o p t c e : alike o p → alike (begin M prof sched name o t c e) (begin M prof sched name p t c e).
  Proof. intros H. unfold begin. rewrite <-(proj1 H). destruct (d_busy (desks o t)); [done|]. by apply set_busy_alike. Qed.
  Lemma begin_ready o t c e : ready o → ready (begin M prof sched name o t c e).
  Proof.
    intros H. unfold begin. destruct (d_busy (desks o t)); [done|]. unfold ready, set_busy. cbn. apply set_busy_ready; [|done].
    cbn. intros b [= <-]. apply any_step.
  Qed.
  Lemma begin_store o t c e : o_store (begin M prof sched name o t c e) = o_store o.
  Proof. unfold begin. by destruct (d_busy (desks o t)). Qed.

  (** All events but the effects of steps. *)
  Definition no_effect (oe : oevent M) : Prop := match oe with OEff _ => False | _ => True end.
  Lemma step_alike o p oe : no_effect oe → alike o p → alike (ostep o oe) (ostep p oe).
  Proof.
    intros He H. pose proof H as (H1 & H2 & H3 & H4).
    destruct oe as [t c|t i| |t|t|t e|t|t|]; try done; cbn [ostep].
    - unfold caller_step. rewrite H3, H1.
      pose proof (view_but o p t H) as Hv. pose proof (caller_but prof sched (name t) (clock t) _ _ (FCall c) I Hv) as Hs.
      destruct Hv as (_&_&_&_&_&_&_&<-&_). pose proof Hs as (_&_&_&_&_&_&_&<-&_). by apply put_alike.
    - unfold caller_step. rewrite H3, H1.
      pose proof (view_but o p t H) as Hv. pose proof (caller_but prof sched (name t) (clock t) _ _ (FGo i) I Hv) as Hs.
      destruct Hv as (_&_&_&_&_&_&_&<-&_). pose proof Hs as (_&_&_&_&_&_&_&<-&_). by apply put_alike.
    - unfold aj_step. rewrite <-H3. destruct (o_box o) as [|[t i] box]; [done|]. unfold name_taken. rewrite <-H1, <-H4.
      pose proof (caller_but prof sched (name t) (clock t) _ _ FAj I (view_but o p t H)) as Hs.
      pose proof Hs as (_&_&_&_&_&_&<-&_). case_match; [by apply gone_alike|by apply put_alike].
    - rewrite <-H1. case_match; [by apply begin_alike|done].
    - rewrite <-H1. destruct (d_box (desks o t)) as [|i l]; [done|]. destruct (d_cs (desks o t) !! i); [|done].
      case_match; [by apply begin_alike|done].
    - rewrite <-H1. case_match; [by apply begin_alike|done].
    - rewrite <-H1, <-H3. destruct (d_busy (desks o t)) as [[c e n [[s r]| | |]]|]; try done.
      pose proof (view_but o p t H) as Hv. pose proof Hv as (_&Hr&Hl&_&_&Hb&_).
      rewrite <-Hb. apply put_alike; [done|]. by apply settle_but.
    - split; [|done]. intros t. cbn. by rewrite H1.
  Qed.
  Lemma step_ready o oe : no_effect oe → ready o → ready (ostep o oe) ∧ o_store (ostep o oe) = o_store o.
  Proof.
    intros He H. destruct oe as [t c|t i| |t|t|t e|t|t|]; try done; cbn [ostep].
    - split; [apply put_ready; [done|intros b; apply H]|]. unfold caller_step, put. cbn [o_store]. by rewrite caller_q.
    - split; [apply put_ready; [done|intros b; apply H]|]. unfold caller_step, put. cbn [o_store]. by rewrite caller_q.
    - unfold aj_step. destruct (o_box o) as [|[t i] box]; [done|]. case_match.
      + split; [|done]. intros t' b. apply (H t').
      + split; [apply put_ready; [done|intros b; apply H]|]. unfold put. cbn [o_store]. by rewrite caller_q.
    - case_match; [|done]. split; [by apply begin_ready|apply begin_store].
    - destruct (d_box (desks o t)) as [|i l]; [done|]. destruct (d_cs (desks o t) !! i); [|done].
      case_match; [|done]. split; [by apply begin_ready|apply begin_store].
    - case_match; [|done]. split; [by apply begin_ready|apply begin_store].
    - destruct (d_busy (desks o t)) as [[c e n [[s r]| | |]]|]; try done. split; [by apply put_ready|].
      unfold put. cbn [o_store]. by rewrite settle_q.
    - split; [|done]. intros t b. cbn. unfold die. repeat case_match; done.
  Qed.

  Definition same_office (o : office M) (r : roffice M) : Prop :=
    alike o (ro_office r) ∧ ready o ∧ store_rel (o_store o) (ro_keys r).
  Lemma same_office_step o r oe : same_office o r → same_office (ostep o oe) (rostep r oe).
  Proof.
    intros (Ha & Hr & Hs).
    assert (no_effect oe → same_office (ostep o oe) (ROffice (ostep (ro_office r) oe) (ro_keys r))) as Hno.
    { intros He. destruct (step_ready o oe He Hr) as [H1 H2]. split; [by apply step_alike|]. split; [done|]. by rewrite H2. }
    destruct oe as [t c|t i| |t|t|t e|t|t|]; try (by apply Hno). clear Hno.
    cbn [ostep rostep]. rewrite <-(proj1 Ha t). pose proof (Hr t) as Hb.
    destruct (d_busy (desks o t)) as [[c e n [| | |X x k]]|] eqn:Eb; try done.
    destruct (Hb _ eq_refl) as [Hp1 Hp2]. cbn in Hp1, Hp2.
    assert (redis_rel any_list (World (o_store o) (d_reads (desks o t)) (d_log (desks o t)))
              (RWorld (ro_keys r) (d_reads (desks o t)) (d_log (desks o t)))) as HR.
    { destruct Hs as (H1 & H2 & _). by split; [|split; [|split]]. }
    destruct (redis_sim any_list any_list_dec (clock t) X x _ _ Hp1 HR) as [E1 E2].
    destruct (mem_h _ _ _ _) as [w a]. destruct (redis_h _ _ _ _) as [w' a']. cbn [fst snd] in *. subst a'.
    pose proof E2 as (_ & _ & <- & <-). split; [by apply set_busy_alike|]. split.
    - unfold ready, set_busy. cbn. apply set_busy_ready; [|done]. cbn. intros b [= <-]. apply Hp2.
    - by apply redis_rel_store.
  Qed.
  Lemma same_office_run oes :
    same_office (office_run M prof sched name clock (office_init M store_empty) oes)
                (roffice_run M prof sched name clock (roffice_init M ∅) oes).
  Proof.
    induction oes as [|oe oes IH] using rev_ind.
    - split; [done|]. split; [done|]. apply (redis_rel_empty any_list).
    - unfold office_run, roffice_run in *. rewrite !fold_left_app. cbn [fold_left]. by apply same_office_step.
  Qed.

  (** What this shows. *)
  Context (ids : T → string → Prop).
  Notation orun := (office_run M prof sched name clock (office_init M store_empty)).
  Notation rorun := (roffice_run M prof sched name clock (roffice_init M ∅)).
  Notation rstep t := (sys_step prof sched (name t) (redis_h (clock t))).
  Notation rgo t := (sys_run prof sched (name t) (redis_h (clock t)) (sys_init rworld_empty)).
  Notation mgo t := (sys_run prof sched (name t) (mem_h (clock t)) (sys_init world_empty)).
  Lemma rel_list w r q x : redis_rel any_list w r → k_list (keys r) q x = items (st w) (format_queue_name q x).
  Proof.
    intros (H & _). specialize (H (format_queue_name q x) (queue_key_not_storage q x)). unfold k_list. unfold rlist in H.
    change (items (st w) (format_queue_name q x)) with (ql (st w) (format_queue_name q x)).
    destruct (keys r !! _) as [[l|m]|]; congruence.
  Qed.
  Lemma rel_value lk w r id : ¬ lk STORAGE_HASH → redis_rel lk w r → k_value (keys r) id = mem_sget (st w) STORAGE_HASH id.
  Proof.
    intros Hk (_ & H & _). specialize (H STORAGE_HASH Hk). unfold k_value.
    destruct (keys r !! STORAGE_HASH) as [[l|m]|]; [done|by rewrite H|by rewrite H].
  Qed.
  Lemma office_view oes :
    (∀ t, desks (ro_office (rorun oes)) t = desks (orun oes) t) ∧
    o_up (ro_office (rorun oes)) = o_up (orun oes) ∧ o_box (ro_office (rorun oes)) = o_box (orun oes) ∧
    o_names (ro_office (rorun oes)) = o_names (orun oes) ∧
    (∀ q x, k_list (ro_keys (rorun oes)) q x = items (o_store (orun oes)) (format_queue_name q x)) ∧
    (∀ id, k_value (ro_keys (rorun oes)) id = mem_sget (o_store (orun oes)) STORAGE_HASH id).
  Proof.
    destruct (same_office_run oes) as ((H1 & H2 & H3 & H4) & _ & Hs). do 4 (split; [done|]). split.
    - intros q x. exact (rel_list _ _ q x Hs).
    - intros id. exact (rel_value _ _ _ id (λ H : any_list _, H eq_refl) Hs).
  Qed.
  Lemma office_desk oes t : desks (ro_office (rorun oes)) t = desks (orun oes) t.
  Proof. apply office_view. Qed.
  Lemma clean_empty t : clean (queue_of name clock ids t) store_empty.
  Proof. split; [intros s x H; by apply elem_of_nil in H|]. intros x js j _ H. done. Qed.

  Lemma office_redis_history oes t :
    separate name ids → Forall (keeps_ids ids) oes →
    let d := desks (ro_office (rorun oes)) t in
    let es := map (λ x, x.1.2) (d_trace d) in
    own_state (rgo t es) = d_q d ∧
    (∀ k i e r, d_trace d !! k = Some (i, e, r) → r = (rstep t (rgo t (take k es)) e).2) ∧
    (d_busy d = None →
       rreads (sw (rgo t es)) = d_reads d ∧ rlog (sw (rgo t es)) = d_log d ∧
       (∀ x, k_list (keys (sw (rgo t es))) (name t) x = k_list (ro_keys (rorun oes)) (name t) x) ∧
       (∀ id, ids t id → k_value (keys (sw (rgo t es))) id = k_value (ro_keys (rorun oes)) id)).
  Proof.
    intros H1 H2. cbv zeta. rewrite office_desk.
    destruct (office_history prof sched name clock ids H1 store_empty oes clean_empty H2 t) as (G1 & G2 & G3).
    change (World store_empty 0 []) with world_empty in G1, G2, G3.
    assert (∀ es : list (event (M t)), same_sys (name t) (mgo t es) (rgo t es)) as Hs.
    { intros es. apply responses_same. split; [apply redis_rel_empty|done]. }
    set (es := map _ _) in *. split; [|split].
    - rewrite <-G1. destruct (Hs es) as (_ & E1 & E2 & E3 & E4). unfold own_state. by rewrite E1, E2, E3, E4.
    - intros k i e r Hk. rewrite (G2 k i e r Hk). by apply step_same.
    - intros Hb. destruct (G3 Hb) as (R1 & R2 & V1 & V2). destruct (Hs es) as (HR & _).
      destruct (office_view oes) as (_ & _ & _ & _ & L1 & L2).
      pose proof HR as (Hq & _ & <- & <-). split; [done|]. split; [done|]. split.
      + intros x. rewrite L1. specialize (V1 x). cbn in V1. etrans; [|exact V1].
        specialize (Hq (format_queue_name (name t) x) (list_key_name _ _)). unfold k_list. unfold rlist in Hq.
        change (items ?s ?k) with (ql s k).
        destruct (keys _ !! _) as [[l|m]|]; congruence.
      + intros id Hid. rewrite L2, <-(V2 id Hid). apply (rel_value (list_key (name t))); [apply list_key_storage|done].
  Qed.
  Lemma office_redis_answers oes t i c :
    separate name ids → Forall (keeps_ids ids) oes →
    let d := desks (ro_office (rorun oes)) t in
    d_cs d !! i = Some c →
    fits (c_call c) (c_from c) (steps_of i (d_trace d)) ∧
    ∀ r to, c_at c = Returned r to →
      explained (c_call c) (c_from c) to r (steps_of i (d_trace d)) ∧ (to <= length (d_trace d))%nat.
  Proof. intros H1 H2. cbv zeta. rewrite office_desk. exact (office_answers prof sched name clock ids H1 store_empty oes clean_empty H2 t i c). Qed.
  Lemma office_redis_order oes t i1 i2 c1 c2 r1 to1 k1 e1 x1 k2 e2 x2 :
    separate name ids → Forall (keeps_ids ids) oes →
    let d := desks (ro_office (rorun oes)) t in
    d_cs d !! i1 = Some c1 → d_cs d !! i2 = Some c2 →
    c_at c1 = Returned r1 to1 → (to1 <= c_from c2)%nat →
    d_trace d !! k1 = Some (Some i1, e1, x1) → d_trace d !! k2 = Some (Some i2, e2, x2) → (k1 < k2)%nat.
  Proof.
    intros H1 H2. cbv zeta. rewrite office_desk.
    exact (office_order prof sched name clock ids H1 store_empty oes clean_empty H2 t i1 i2 c1 c2 r1 to1 k1 e1 x1 k2 e2 x2).
  Qed.
  Lemma office_redis_dies oes oe :
    separate name ids → Forall (keeps_ids ids) (oes ++ [oe]) →
    o_up (ro_office (rorun oes)) = true → o_up (ro_office (rorun (oes ++ [oe]))) = false →
    oe = OAj ∧ ∃ t i box c, o_box (ro_office (rorun oes)) = (t, i) :: box ∧ d_cs (desks (ro_office (rorun oes)) t) !! i = Some c ∧
      c_at c = InitSent ∧ d_known (desks (ro_office (rorun oes)) t) = true.
  Proof.
    intros H1 [H2 _]%Forall_app. destruct (office_view oes) as (D & -> & -> & _). destruct (office_view (oes ++ [oe])) as (_ & -> & _).
    intros U1 U2. unfold office_run in U2. rewrite fold_left_app in U2.
    destruct (office_dies prof sched name clock ids H1 store_empty oes clean_empty H2 oe U1 U2) as (-> & t & i & box & c & G).
    split; [done|]. exists t, i, box, c. by rewrite D.
  Qed.
  Lemma office_redis_served oes t i c :
    separate name ids → Forall (keeps_ids ids) oes →
    d_cs (desks (ro_office (rorun oes)) t) !! i = Some c →
    ∃ oes' c', Forall (tends t) oes' ∧ d_cs (desks (ro_office (rorun (oes ++ oes'))) t) !! i = Some c' ∧
      (c_at c' = Gone ∨ ∃ r to, c_at c' = Returned r to).
  Proof.
    intros H1 H2. rewrite office_desk. intros Hc.
    destruct (office_served prof sched name clock ids H1 store_empty oes clean_empty H2 t i c Hc) as (oes' & c' & G1 & G2 & G3).
    exists oes', c'. split; [done|]. split; [|done]. by rewrite office_desk.
  Qed.
End office.
