(** Progress in endless fair executions of a fleet. *)
From Verif Require Import SpecFleetFair JsonFacts BackendFacts WorldFacts MicroFacts LifeFacts HistFacts SubmitFacts
  LifeProps ListFacts ApiFacts PickFacts StarveFacts CrashFacts LiveFacts WorkersFacts FleetLive.

Section one.
  Context {M : Type} `{SM : Serde M} {SO : SerdeOk M}.
  Context (prof : profile).
  Context (sched : string → option (time → option time)).
  Context (name : string).
  Context (clock : nat → time).
  Notation sys := (sys world M).
  Notation step := (sys_step prof sched name (mem_h clock)).

  (** A step does not look at other tasks. *)
  Lemma ext_step o (s : sys) e :
    alive s = true → calm e → alive (step s e).1 = true →
    (step (ext o s) (shift (length o) e)).1 = ext o (step s e).1.
  Proof.
    intros Ha Hc. unfold sys_step. cbn [ext alive]. rewrite Ha.
    assert (∀ e', e' = shift (length o) e → alive (commit prof sched name (mem_h clock) s e).1 = true →
      (commit prof sched name (mem_h clock) (ext o s) e').1 = ext o (commit prof sched name (mem_h clock) s e).1) as H.
    { intros e' ->. unfold commit. cbn [ext cfg tasks sw runs].
      destruct e as [j ec|k|k|k|c'| |i u| | |e' n|]; try done; cbn [shift ev_prog];
        try (rewrite !run_bind; destruct (run _ (_ : prog (result _)) (sw s)) as [w [x| |]]; cbn; done).
      - unfold process_jobs. rewrite !run_bind. destruct (run _ _ (sw s)) as [w [[js|er]| |]]; cbn; try done.
        intros _. unfold ext. cbn. by rewrite app_assoc.
      - rewrite lookup_app_add. destruct (tasks s !! i) as [t|]; [|done]. rewrite !run_bind.
        destruct (run _ _ (sw s)) as [w [[[t'|] js]| |]]; cbn; try done; intros _; unfold ext; cbn.
        + by rewrite insert_app_add.
        + by rewrite delete_app_r_add. }
    destruct e; try done; apply (H _ eq_refl).
  Qed.
  Lemma calm_shift n (e : event M) : calm (shift n e) ↔ calm e.
  Proof. by destruct e. Qed.
End one.

Section many.
  Context {M : Type} `{SM : Serde M} {SO : SerdeOk M}.
  Context (prof : nat → profile).
  Context (sched : nat → string → option (time → option time)).
  Context (name : string).
  Context (clock : nat → nat → time).
  Notation stored := (@stored M SM).
  Notation qlist := (qlist name).
  Notation fstep := (fleet_step prof sched name clock).
  Notation frun := (fleet_run prof sched name clock).
  Notation at_ := (at_ name).
  Notation all_at := (all_at name).
  Notation step i := (sys_step (prof i) (sched i) name (mem_h (clock i))).
  Notation served := (served name).
  Notation work := (@work M).
  Implicit Types f : fleet M.

  Definition dead_empty f : Prop := Forall (λ m : member M, m_alive m = false → m_tasks m = []) (f_members f).
  Lemma dead_empty_step f ie : dead_empty f → dead_empty (fstep f ie).
  Proof.
    intros H. unfold fleet_step. destruct (f_members f !! ie.1) as [m|] eqn:Em; [|done].
    apply Forall_insert; [done|]. cbn [m_alive m_tasks].
    apply (dead_step (prof ie.1) (sched ie.1) name (clock ie.1) (seen_by f m) ie.2). cbn.
    exact (Forall_lookup_1 _ _ _ _ H Em).
  Qed.
  Lemma dead_empty_run f es : dead_empty f → dead_empty (frun f es).
  Proof. revert f. induction es as [|e es IH]; intros f H; [done|]. apply IH, dead_empty_step, H. Qed.
  Lemma dead_empty_init n : dead_empty (fleet_init (M := M) n).
  Proof. apply list.Forall_forall. intros m Hm. cbn in Hm. apply elem_of_list_lookup in Hm as [i Hi]. by apply lookup_replicate in Hi as [-> _] || (apply elem_of_list_lookup_2 in Hi; apply elem_of_list_In, repeat_spec in Hi; by subst). Qed.

  (** A step of the fleet as a step of one queue, with all the tasks and those of [x]. *)
  Lemma sees x f i e m :
    f_members f !! i = Some m → (m_alive m = false → m_tasks m = []) → ok_fleet_event (f_world f) e →
    (m_alive m = true ∨ e = EvStart → lives (fstep f (i, e)) i) →
    fstep f (i, e) = f ∨
    ∃ o c e', all_tasks f ≡ₚ o ++ m_tasks m ∧
      let s := Sys (f_world f) c ((x ++ o) ++ m_tasks m) true (f_runs f) in let s' := (step i s e').1 in
      calm e' ∧ ok_event s e' ∧ alive s' = true ∧ sw s' = f_world (fstep f (i, e)) ∧ runs s' = f_runs (fstep f (i, e)) ∧
      x ++ all_tasks (fstep f (i, e)) ≡ₚ tasks s' ∧
      (m_alive m = true ∧ c = m_cfg m ∧ e' = shift (length (x ++ o)) e ∨
       m_alive m = false ∧ e = EvStart ∧ e' = EvTick ∧ lives (fstep f (i, e)) i).
  Proof.
    intros Em Hde Hok Hlive. destruct (tasks_split f i m Em) as (o & Ho & Ho').
    assert (i < length (f_members f))%nat as Hi by (by eapply lookup_lt_Some).
    destruct (m_alive m) eqn:Eal.
    - destruct (Hlive ltac:(by left)) as (m' & Em' & Hal'). unfold fleet_step in Em'. cbn [fst snd] in Em'. rewrite Em in Em'.
      cbn [f_members] in Em'. rewrite list_lookup_insert in Em' by done. injection Em' as <-. cbn [m_alive] in Hal'.
      assert (e = EvStart ∨ calm e) as [->|Hc].
      { destruct e; try (by right); try (by left); try done;
          unfold seen_by, sys_step in Hal'; cbn [alive] in Hal'; rewrite Eal in Hal'; done. }
      + left. unfold fleet_step. cbn [fst snd]. rewrite Em. unfold seen_by, sys_step. cbn [alive]. rewrite Eal. cbn [fst].
        cbn [sw cfg tasks alive runs]. destruct f as [w ms rs]. cbn in *. f_equal. apply list_insert_id.
        rewrite Em. by destruct m; cbn in *; subst.
      + right. exists o, (m_cfg m), (shift (length (x ++ o)) e). split; [done|]. cbv zeta.
        assert (Sys (f_world f) (m_cfg m) ((x ++ o) ++ m_tasks m) true (f_runs f) = ext (x ++ o) (seen_by f m)) as E.
        { unfold ext, seen_by. cbn. by rewrite Eal. }
        rewrite E. rewrite (ext_step (prof i) (sched i) name (clock i) (x ++ o) (seen_by f m) e) by done.
        unfold fleet_step. cbn [fst snd]. rewrite Em. cbn [ext sw runs tasks alive f_world f_runs].
        split; [by apply calm_shift|]. split; [by destruct e|]. split; [done|]. split; [done|]. split; [done|].
        split; [|by left]. rewrite Ho'. cbn [m_tasks]. by rewrite app_assoc.
    - specialize (Hde eq_refl). assert (e = EvStart ∨ e ≠ EvStart) as [->|Hne] by (destruct e; (by left) || (by right)).
      + right. exists o, wq_config_default, EvTick. split; [done|]. cbv zeta.
        destruct (Hlive ltac:(by right)) as (m' & Em' & Hal').
        assert (lives (fstep f (i, EvStart)) i) as Hl by (by exists m').
        unfold fleet_step in Em'. cbn [fst snd] in Em'. rewrite Em in Em'.
        cbn [f_members] in Em'. rewrite list_lookup_insert in Em' by done. injection Em' as <-. cbn [m_alive] in Hal'.
        set (s0 := Sys (f_world f) wq_config_default [] true (f_runs f)).
        assert (alive (step i s0 EvTick).1 = true ∧ (step i (seen_by f m) EvStart).1 = (step i s0 EvTick).1) as [Ha0 E].
        { assert (alive (step i s0 EvTick).1 = true) as H.
          { unfold s0. rewrite step_tick by done. revert Hal'. unfold seen_by. rewrite Eal. cbn [sys_step alive]. unfold commit.
            cbn [ev_prog cfg tasks sw runs]. rewrite run_bind, run_process_jobs. cbv zeta.
            destruct (do_pick _ name _ (max_processing_jobs wq_config_default) (f_world f)) as [[w' js] o']. cbn [fst snd].
            by destruct o'. }
          split; [done|]. unfold seen_by. rewrite Eal. by apply start_is_tick. }
        assert (Sys (f_world f) wq_config_default ((x ++ o) ++ m_tasks m) true (f_runs f) = ext (x ++ o) s0) as E1.
        { unfold ext, s0. cbn. by rewrite Hde. }
        rewrite E1. change EvTick with (shift (length (x ++ o)) (@EvTick M)).
        rewrite (ext_step (prof i) (sched i) name (clock i) (x ++ o) s0 EvTick) by done. rewrite <-E.
        split; [done|]. split; [done|]. cbn [ext alive sw tasks runs]. split; [done|].
        split; [by unfold fleet_step; cbn [fst snd]; rewrite Em|]. split; [by unfold fleet_step; cbn [fst snd]; rewrite Em|].
        split; [|by right]. unfold fleet_step. cbn [fst snd]. rewrite Em, Ho'. cbn [m_tasks]. by rewrite app_assoc.
      + left. unfold fleet_step. cbn [fst snd]. rewrite Em. unfold seen_by.
        assert ((step i (Sys (f_world f) (m_cfg m) (m_tasks m) (m_alive m) (f_runs f)) e).1 =
          Sys (f_world f) (m_cfg m) (m_tasks m) (m_alive m) (f_runs f)) as ->.
        { unfold sys_step. cbn [alive]. rewrite Eal. by destruct e as [| | | | | | | | |e' n|]. }
        cbn [sw cfg tasks alive runs]. destruct f as [w ms rs]. cbn in *. f_equal. apply list_insert_id.
        rewrite Em. by destruct m; cbn in *; subst.
  Qed.

  (** Lost ids are like tasks that are never polled. *)
  Definition wide (x : list (task M)) f : sys world M :=
    Sys (f_world f) wq_config_default (x ++ all_tasks f) true (f_runs f).
  Lemma served_perm (s s' : sys world M) : served s → sw s' = sw s → tasks s' ≡ₚ tasks s → served s'.
  Proof.
    intros H Ew Et id Hid. rewrite Ew in Hid. specialize (H id Hid). intros E. apply H. unfold tasks_of in *.
    apply Permutation_nil_r. by rewrite <-E, Et.
  Qed.
  Lemma all_at_perm (s s' : sys world M) : all_at s → sw s' = sw s → tasks s' ≡ₚ tasks s → all_at s'.
  Proof. intros H Ew Et id. destruct (H id) as [p Hp]. exists p. by eapply at_perm. Qed.

  Lemma wide_step x f i e :
    dead_empty f → ok_fleet_event (f_world f) e →
    (lives f i ∨ e = EvStart ∧ (i < length (f_members f))%nat → lives (fstep f (i, e)) i) →
    all_at (wide x f) → served (wide x f) → all_at (wide x (fstep f (i, e))) ∧ served (wide x (fstep f (i, e))).
  Proof.
    intros Hde Hok Hl Ha Hs. destruct (f_members f !! i) as [m|] eqn:Em.
    2: { unfold fleet_step. cbn [fst]. rewrite Em. done. }
    destruct (sees x f i e m Em) as [->|(o & c & e' & Ho & Hx)]; [exact (Forall_lookup_1 _ _ _ _ Hde Em)|done| |done|].
    { intros [H|H]; apply Hl; [left; by exists m|right]. split; [done|by eapply lookup_lt_Some]. }
    cbv zeta in Hx. set (s := Sys _ _ _ _ _) in *. destruct Hx as (Hc & Hoe & Hal & Hw & Hr & Ht & _).
    assert (tasks s ≡ₚ tasks (wide x f)) as Hp. { cbn. by rewrite Ho, app_assoc. }
    assert (all_at s) as Has by (by eapply all_at_perm).
    assert (served s) as Hss by (by eapply served_perm).
    pose proof (served_step (prof i) (sched i) name (clock i) s e' Hc Hoe Has Hss Hal) as Hs'.
    destruct (life_step (prof i) (sched i) name (clock i) s e' Hoe Has) as [Ha' _].
    split; [eapply all_at_perm|eapply served_perm]; try done.
  Qed.

  (** *** Work *)
  Lemma work_perm (a b : list (task M)) : a ≡ₚ b → work a = work b.
  Proof.
    intros H. unfold LiveFacts.work. induction H as [|t a b _ IH|t t' a|a b c _ IH1 _ IH2]; cbn in *; lia.
  Qed.
  Definition dead (f : fleet M) : nat := length (filter (λ m : member M, m_alive m = false) (f_members f)).
  Lemma dead_insert (ms : list (member M)) i m m' :
    ms !! i = Some m → (m_alive m = true → m_alive m' = true) →
    (length (filter (λ m : member M, m_alive m = false) (<[i:=m']> ms)) <= length (filter (λ m : member M, m_alive m = false) ms))%nat ∧
    (m_alive m = false → m_alive m' = true →
     (length (filter (λ m : member M, m_alive m = false) (<[i:=m']> ms)) < length (filter (λ m : member M, m_alive m = false) ms))%nat).
  Proof.
    intros Hi Hm. rewrite insert_take_drop by (by eapply lookup_lt_Some).
    rewrite <-(take_drop_middle ms i m Hi) at 3 6. rewrite !list.filter_app, !app_length, !filter_cons.
    destruct (decide (m_alive m' = false)) as [E'|E'], (decide (m_alive m = false)) as [E|E]; cbn [length]; split; try lia.
    - intros _ E2. congruence.
    - exfalso. destruct (m_alive m); [|done]. rewrite Hm in E' by done. done.
    - intros E2. congruence.
    - intros E2. congruence.
  Qed.
  Lemma members_length f ie : length (f_members (fstep f ie)) = length (f_members f).
  Proof. unfold fleet_step. destruct (f_members f !! ie.1); [|done]. cbn. by rewrite insert_length. Qed.

  Definition opens f (ie : nat * event M) : Prop := ie.2 = EvTick ∧ has_slot name f ie.1 = true.
  Lemma fleet_work f i e :
    dead_empty f → ok_fleet_event (f_world f) e →
    (lives f i ∨ e = EvStart ∧ (i < length (f_members f))%nat → lives (fstep f (i, e)) i) →
    (dead (fstep f (i, e)) <= dead f)%nat ∧
    (opens f (i, e) ∨ (dead (fstep f (i, e)) < dead f)%nat ∨ (work (all_tasks (fstep f (i, e))) <= work (all_tasks f))%nat).
  Proof.
    intros Hde Hok Hl. destruct (f_members f !! i) as [m|] eqn:Em.
    2: { unfold fleet_step. cbn [fst]. rewrite Em. split; [done|]. right; by right. }
    assert (i < length (f_members f))%nat as Hi by (by eapply lookup_lt_Some).
    assert (f_members (fstep f (i, e)) = <[i := Member (cfg (step i (seen_by f m) e).1) (tasks (step i (seen_by f m) e).1)
      (alive (step i (seen_by f m) e).1)]> (f_members f)) as Emm.
    { unfold fleet_step. cbn [fst snd]. by rewrite Em. }
    assert (lives (fstep f (i, e)) i → alive (step i (seen_by f m) e).1 = true) as Hla.
    { intros (m' & Em' & Ha'). rewrite Emm, list_lookup_insert in Em' by done. by injection Em' as <-. }
    destruct (dead_insert (f_members f) i m (Member (cfg (step i (seen_by f m) e).1) (tasks (step i (seen_by f m) e).1)
      (alive (step i (seen_by f m) e).1)) Em) as [Hd1 Hd2].
    { intros Ha. cbn. apply Hla, Hl. left. by exists m. }
    rewrite <-Emm in Hd1, Hd2. split; [exact Hd1|].
    destruct (sees [] f i e m Em) as [->|(o & c & e' & Ho & Hx)]; [exact (Forall_lookup_1 _ _ _ _ Hde Em)|done| |by right; right|].
    { intros [H|H]; apply Hl; [left; by exists m|by right]. }
    cbv zeta in Hx. cbn [app] in Hx. set (s := Sys _ _ _ _ _) in *.
    destruct Hx as (Hc & _ & Hal & _ & _ & Ht & [(Ha & -> & ->)|(Ha & -> & -> & Hl')]).
    2: { right; left. apply Hd2; [done|]. cbn. by apply Hla. }
    destruct (match e with EvTick => true | _ => false end) eqn:Et.
    - destruct e; try done. destruct (has_slot name f i) eqn:Es; [by left|]. right; right.
      rewrite (work_perm _ _ Ht), (work_perm _ _ Ho).
      apply (work_step (prof i) (sched i) name (clock i) s EvTick); try done. intros [_ Hf].
      unfold has_slot in Es. rewrite Em, Ha in Es. cbn [andb] in Es. apply Nat.ltb_ge in Es.
      unfold free_slots, s in Hf. cbn [alive cfg sw] in Hf. lia.
    - right; right. rewrite (work_perm _ _ Ht), (work_perm _ _ Ho).
      apply (work_step (prof i) (sched i) name (clock i) s); try done. intros [E _]. destruct e; done.
  Qed.

  (** A poll. *)
  Lemma fleet_poll f i m x u t :
    dead_empty f → f_members f !! i = Some m → m_tasks m !! x = Some t → lives (fstep f (i, EvTask x u)) i →
    (work (all_tasks (fstep f (i, EvTask x u))) < work (all_tasks f))%nat ∧
    f_runs (fstep f (i, EvTask x u)) = f_runs f ++ started t ∧
    ∃ m' o, f_members (fstep f (i, EvTask x u)) !! i = Some m' ∧
      all_tasks f ≡ₚ o ++ m_tasks m ∧ all_tasks (fstep f (i, EvTask x u)) ≡ₚ o ++ m_tasks m' ∧
      m_tasks m' = match next t u with Some t' => <[x:=t']> (m_tasks m) | None => delete x (m_tasks m) end.
  Proof.
    intros Hde Em Hx (m' & Em' & Hal').
    assert (i < length (f_members f))%nat as Hi by (by eapply lookup_lt_Some).
    assert (m_alive m = true) as Ha.
    { destruct (m_alive m) eqn:E; [done|]. rewrite (Forall_lookup_1 _ _ _ _ Hde Em E) in Hx. done. }
    unfold fleet_step in *. cbn [fst snd] in *. rewrite Em in *. cbn [f_members f_runs] in *.
    rewrite list_lookup_insert in Em' by done. injection Em' as <-. cbn [m_alive] in Hal'.
    destruct (tasks_split f i m Em) as (o & Ho & Ho').
    assert (alive (seen_by f m) = true) as Ha0 by done.
    destruct (step_poll (prof i) (sched i) name (clock i) (seen_by f m) x u t Ha0 Hx Hal') as [H1 H2].
    split.
    - rewrite (work_perm _ _ Ho), (work_perm _ _ (Ho' _ _ _)), !work_app. cbn [m_tasks].
      pose proof (work_poll (prof i) (sched i) name (clock i) (seen_by f m) x u t Ha0 Hx Hal') as H3. cbn [seen_by tasks] in H3. lia.
    - split; [done|]. eexists _, o. split; [by apply list_lookup_insert|]. split; [done|]. split; [by rewrite Ho'|]. done.
  Qed.
  (** A task stays in its process until it is polled. *)
  Lemma fleet_stays f ie i m t :
    dead_empty f → NoDup (map tid (all_tasks f)) → ok_fleet_event (f_world f) ie.2 →
    f_members f !! i = Some m → t ∈ m_tasks m → lives (fstep f ie) i →
    (∃ x u, ie = (i, EvTask x u) ∧ m_tasks m !! x = Some t) ∨
    ∃ m', f_members (fstep f ie) !! i = Some m' ∧ t ∈ m_tasks m'.
  Proof.
    intros Hde Hnd Hok Em Ht Hl. destruct ie as [i' e]. cbn [snd] in *. destruct (decide (i' = i)) as [->|Hne].
    2: { right. exists m. unfold fleet_step. cbn [fst snd]. destruct (f_members f !! i'); [|done]. cbn [f_members].
         by rewrite list_lookup_insert_ne. }
    assert (i < length (f_members f))%nat as Hi by (by eapply lookup_lt_Some).
    assert (m_alive m = true) as Ha.
    { destruct (m_alive m) eqn:E; [done|]. rewrite (Forall_lookup_1 _ _ _ _ Hde Em E) in Ht. by apply elem_of_nil in Ht. }
    destruct (tasks_split f i m Em) as (o & Ho & _).
    destruct Hl as (m' & Em' & Hal'). unfold fleet_step in *. cbn [fst snd] in *. rewrite Em in *. cbn [f_members] in *.
    rewrite list_lookup_insert in Em' |- * by done. injection Em' as <-. cbn [m_alive] in Hal'.
    assert (e = EvStart ∨ calm e) as [->|Hc].
    { destruct e; try (by right); try (by left); try done;
        unfold seen_by, sys_step in Hal'; cbn [alive] in Hal'; rewrite Ha in Hal'; done. }
    { right. eexists. split; [done|]. unfold seen_by, sys_step. cbn [alive]. by rewrite Ha. }
    destruct (stays_step (prof i) (sched i) name (clock i) (seen_by f m) e t) as [(x & u & -> & H)|H]; try done.
    - cbn [seen_by tasks]. rewrite Ho, map_app in Hnd. by apply NoDup_app in Hnd as (_ & _ & ?).
    - left. eauto.
    - right. by eexists.
  Qed.

  (** A waiting job waits on, or is taken. *)
  Lemma waits_or_taken f i e id j :
    all_at (whole f) → ok_fleet_event (f_world f) e → at_ (whole f) id (PQueued j) → ¬ disturbs id e →
    fits name (f_world f) →
    at_ (whole (fstep f (i, e))) id (PQueued j) ∨ taken_by (fstep f (i, e)) i id.
  Proof.
    intros Ha He Hp Hd Hfit.
    assert (id ∈ qlist (f_world f) Queued) as Hin0.
    { apply cnt_pos. destruct Hp as [(_ & Hc & _) _]. cbn in Hc. lia. }
    destruct (fleet_waits prof sched name clock f i e id j Ha He Hp Hd) as [Hp'|(Ht & p & Hp' & Hpp)]; [by left|].
    right. destruct (f_members f !! i) as [m|] eqn:Em.
    2: { exfalso. unfold fleet_step in Hp'. cbn [fst] in Hp'. rewrite Em in Hp'.
         destruct Hp as [(_ & _ & Hr & _) _].
         destruct Hpp as [[t ->]|[j0 ->]]; destruct Hp' as [(_ & _ & Hr' & _) _]; cbn in Hr, Hr'; lia. }
    assert (id ∉ qlist (f_world (fstep f (i, e))) Queued) as Hnin.
    { intros Hc%cnt_pos. destruct Hpp as [[t ->]|[j0 ->]]; destruct Hp' as [(_ & Hq' & _) _]; cbn in Hq'; lia. }
    destruct (tick_cases prof sched name clock f i e m Ht Em Ha Hfit) as [[Hw _]|(m' & k & new & <- & Em' & Hal & Hsp & Hperm & _)].
    { by rewrite Hw in Hnin. }
    assert (id ∈ map jid new) as Hin by (rewrite Hperm in Hin0; set_solver).
    apply elem_of_list_fmap in Hin as (j' & Hj' & Hin).
    exists m', (spawn j'). split; [done|]. split; [done|]. split; [by apply Hsp|]. split; [by rewrite Hj'|done].
  Qed.
  (** A tick with a free slot reads the clock, as long as something waits. *)
  Lemma opens_read f ie id : opens f ie → all_at (whole f) → fits name (f_world f) → id ∈ qlist (f_world f) Queued →
    (reads (f_world f) < reads (f_world (fstep f ie)))%nat.
  Proof.
    destruct ie as [i e]. intros [He Hs] Ha Hf Hin. cbn [fst snd] in *. subst e. unfold has_slot in Hs.
    destruct (f_members f !! i) as [m|] eqn:Em; [|done]. apply andb_prop in Hs as [Hal Hlt]. apply Nat.ltb_lt in Hlt.
    unfold fleet_step. cbn [fst snd]. rewrite Em. cbn [f_world].
    destruct (tick_spec (prof i) (sched i) name (clock i) (seen_by f m)) as (new & _ & _ & _ & _ & H5 & _ & H7 & _ & _ & _ & H11 & H12).
    { done. } { exact (whole_keyed name f Ha). } { exact (whole_nodup name f Ha). } { done. }
    cbn [seen_by sw] in *. destruct new as [|j new].
    - destruct H12 as [H12|H12].
      + unfold free_slots in H12. cbn in H12. rewrite Hal in H12. cbn in H12. lia.
      + cbn [map] in H7. rewrite app_nil_r in H7. rewrite H7 in Hin. destruct (H12 id Hin) as [Hn|(j & k & _ & Hk & _)]; [|lia].
        exfalso. rewrite <-H7 in Hin. destruct (all_at_stored name (whole f) id Ha Hin) as (j & Hj & _). cbn in Hj. congruence.
    - destruct (H11 j ltac:(left)) as (j0 & k & _ & _ & Hk1 & Hk2 & _). lia.
  Qed.


  (** *** The lost ids *)
  Definition fakes f : list (task M) := omap (λ id, spawn <$> stored (f_world f) id) (lost name f).
  Lemma omap_spawn (g : string → option (job M)) l id :
    NoDup l → (∀ k, k ∈ l → ∃ j, g k = Some j ∧ jid j = k) →
    filter (λ t : task M, tid t = id) (omap (λ k, spawn <$> g k) l) =
    if decide (id ∈ l) then match g id with Some j => [spawn j] | None => [] end else [].
  Proof.
    induction l as [|k l IH]; intros Hnd Hl; [by rewrite decide_False by apply not_elem_of_nil|].
    apply list.NoDup_cons in Hnd as [Hk Hnd]. destruct (Hl k ltac:(left)) as (j & Hj & Hjk).
    change (omap (λ k, spawn <$> g k) (k :: l)) with (match spawn <$> g k with Some y => y :: omap (λ k, spawn <$> g k) l | None => omap (λ k, spawn <$> g k) l end).
    rewrite Hj. cbn [fmap option_fmap option_map]. rewrite filter_cons. rewrite IH; [|done|intros k' Hk'; apply Hl; by right].
    assert (tid (spawn j) = k) as Et by (by rewrite <-Hjk).
    destruct (decide (tid (spawn j) = id)) as [E|E].
    - rewrite Et in E. subst k. rewrite E in *. rewrite decide_False by done. rewrite decide_True by left. by rewrite Hj.
    - rewrite Et in E. destruct (decide (id ∈ l)) as [Hi|Hi].
      + by rewrite decide_True by (by right).
      + rewrite decide_False; [done|]. by intros [?|?]%elem_of_cons; congruence.
  Qed.
  Lemma running_nodup f : all_at (whole f) → NoDup (qlist (f_world f) Running).
  Proof.
    intros Ha. apply cnt_nodup. intros id. destruct (Ha id) as [p Hp].
    destruct p; cbn in Hp; (destruct Hp as ((_&_&->&_)&_) || destruct Hp as (_&_&->&_)); lia.
  Qed.
  Lemma lost_orphan f id : all_at (whole f) → id ∈ lost name f → ∃ j, at_ (whole f) id (POrphan j).
  Proof.
    intros Ha [Hnt Hr]%elem_of_list_filter. destruct (Ha id) as [p Hp]. apply cnt_pos in Hr.
    destruct p as [|j|j|t|j|j]; try by eauto.
    1,2,3,5: exfalso; assert (cnt id (qlist (sw (whole f)) Running) = 0%nat) as E by apply Hp; cbn in E; lia.
    exfalso. apply Hnt. apply (at_task_in name f id _ Hp). eauto.
  Qed.
  Lemma fakes_of f id : all_at (whole f) →
    filter (λ t : task M, tid t = id) (fakes f) =
    if decide (id ∈ lost name f) then match stored (f_world f) id with Some j => [spawn j] | None => [] end else [].
  Proof.
    intros Ha. apply omap_spawn.
    - unfold lost. apply list.NoDup_filter, running_nodup, Ha.
    - intros k Hk. destruct (lost_orphan f k Ha Hk) as [j [(H1 & _) (H2 & _)]]. exists j. done.
  Qed.
  Lemma wide_begin f : all_at (whole f) → all_at (wide (fakes f) f) ∧ served (wide (fakes f) f).
  Proof.
    intros Ha. assert (∀ id, tasks_of id (wide (fakes f) f) = filter (λ t : task M, tid t = id) (fakes f) ++ tasks_of id (whole f)) as E.
    { intros id. unfold tasks_of. cbn. by rewrite list.filter_app. }
    split.
    - intros id. specialize (E id). rewrite fakes_of in E by done. destruct (decide (id ∈ lost name f)) as [Hi|Hi].
      + destruct (lost_orphan f id Ha Hi) as [j [(H1 & H2 & H3 & H4) (H5 & H6 & H7)]]. cbn in H1. rewrite H1, H4 in E.
        exists (PTask (spawn j)). cbn. done.
      + destruct (Ha id) as [p Hp]. exists p. cbn [app] in E. unfold LifeFacts.at_ in *. cbn [wide sw] in *. rewrite E. done.
    - intros id Hid. rewrite E, fakes_of by done. cbn in Hid.
      destruct (decide (id ∈ lost name f)) as [Hi|Hi].
      + destruct (lost_orphan f id Ha Hi) as [j [(H1 & _) _]]. cbn in H1. by rewrite H1.
      + cbn [app]. intros Ht. apply Hi. apply elem_of_list_filter. split; [|done].
        intros Hin. destruct (Ha id) as [p Hp]. destruct (proj1 (at_task_in name f id _ Hp) Hin) as [t E1].
        rewrite E1 in Hp. assert (tasks_of id (whole f) = [t]) as Hx by apply Hp. congruence.
  Qed.
  Lemma no_tasks_running x f :
    all_at (wide x f) → served (wide x f) → all_tasks f = [] → (length (qlist (f_world f) Running) <= length x)%nat.
  Proof.
    intros Ha Hs Ht.
    assert (qlist (f_world f) Running ⊆+ map tid x) as Hsub.
    { apply NoDup_submseteq.
      - apply cnt_nodup. intros id. destruct (Ha id) as [p Hp].
        destruct p; cbn in Hp; (destruct Hp as ((_&_&->&_)&_) || destruct Hp as (_&_&->&_)); lia.
      - intros id Hid. specialize (Hs id Hid). unfold tasks_of in Hs. cbn in Hs. rewrite Ht, app_nil_r in Hs.
        destruct (filter (λ t : task M, tid t = id) x) as [|t l] eqn:E; [done|].
        assert (t ∈ filter (λ t : task M, tid t = id) x) as [<- Hin]%elem_of_list_filter by (rewrite E; left).
        by apply elem_of_list_fmap_1. }
    apply submseteq_length in Hsub. by rewrite map_length in Hsub.
  Qed.
  Lemma fakes_length f : (length (fakes f) <= length (lost name f))%nat.
  Proof. unfold fakes. induction (lost name f) as [|k l IH]; cbn; [done|]. destruct (stored _ k); cbn; lia. Qed.

  Lemma useful_app f es es' :
    useful_ticks prof sched name clock f (es ++ es') =
    (useful_ticks prof sched name clock f es + useful_ticks prof sched name clock (frun f es) es')%nat.
  Proof.
    revert f. induction es as [|e es IH]; intros f; [done|]. cbn [app SpecFleetLive.useful_ticks]. rewrite IH.
    change (frun f (e :: es)) with (frun (fstep f e) es). lia.
  Qed.
  Lemma f_arrivals_app f es es' :
    fleet_arrivals prof sched name clock f (es ++ es') =
    (fleet_arrivals prof sched name clock f es + fleet_arrivals prof sched name clock (frun f es) es')%nat.
  Proof.
    revert f. induction es as [|e es IH]; intros f; [done|]. cbn [app SpecFleetLive.fleet_arrivals]. rewrite IH.
    change (frun f (e :: es)) with (frun (fstep f e) es). lia.
  Qed.
  Lemma f_arrivals_len f es :
    (length (qlist (f_world (frun f es)) Queued) <= length (qlist (f_world f) Queued) + fleet_arrivals prof sched name clock f es)%nat.
  Proof.
    revert f. induction es as [|e es IH]; intros f; [cbn; lia|]. cbn [SpecFleetLive.fleet_arrivals].
    change (frun f (e :: es)) with (frun (fstep f e) es). specialize (IH (fstep f e)). lia.
  Qed.

  (** *** Endless executions *)
  Section run.
    Context (N : nat) (ev : nat → nat * event M) (n0 : nat).
    Notation F n := (f_moment prof sched name clock N ev n).
    Context (Hh : f_healthy prof sched name clock N ev n0).
    Context (Hticks : f_ticking prof sched name clock N ev).
    Context (Hpolls : f_polling prof sched name clock N ev n0).

    Lemma F_S n : F (S n) = fstep (F n) (ev n).
    Proof. unfold f_moment, fleet_after. rewrite seq_S, map_app. cbn [map]. by rewrite fleet_snoc. Qed.
    Lemma F_add n d : F (n + d)%nat = frun (F n) (map ev (seq n d)).
    Proof. unfold f_moment, fleet_after, fleet_run. by rewrite seq_app, map_app, fold_left_app. Qed.
    Lemma F_ok n : ok_fleet prof sched name clock (fleet_init N) (map ev (seq 0 n)). Proof. apply Hh. Qed.
    Lemma F_event n : ok_fleet_event (f_world (F n)) (ev n).2.
    Proof.
      pose proof (F_ok (S n)) as H. rewrite seq_S, map_app in H. apply ok_fleet_app in H as [_ H]. cbn in H. apply H.
    Qed.
    Lemma F_at n : all_at (whole (F n)).
    Proof. apply whole_after, F_ok. Qed.
    Lemma F_nodup n : NoDup (map tid (all_tasks (F n))).
    Proof. apply fleet_no_overlap, F_ok. Qed.
    Lemma F_dead_empty n : dead_empty (F n).
    Proof. apply dead_empty_run, dead_empty_init. Qed.
    Lemma F_members n : length (f_members (F n)) = N.
    Proof.
      induction n as [|n IH]; [|by rewrite F_S, members_length].
      cbn. clear. induction N as [|k IH]; [done|]. cbn in *. by rewrite IH.
    Qed.
    Lemma F_lives n i : (n0 <= n)%nat → lives (F n) i ∨ (ev n).2 = EvStart ∧ (ev n).1 = i ∧ (i < length (f_members (F n)))%nat →
      lives (F (S n)) i.
    Proof.
      intros Hn [H|(H1 & H2 & H3)]; apply (proj1 (proj2 Hh)); [done|by left|done|right].
      rewrite F_members in H3. split; [|done]. destruct (ev n). cbn in *. by subst.
    Qed.
    Lemma F_lives' n : (n0 <= n)%nat →
      lives (F n) (ev n).1 ∨ (ev n).2 = EvStart ∧ ((ev n).1 < length (f_members (F n)))%nat → lives (fstep (F n) ((ev n).1, (ev n).2)) (ev n).1.
    Proof.
      intros Hn H. replace ((ev n).1, (ev n).2) with (ev n) by (by destruct (ev n)). rewrite <-F_S.
      apply F_lives; [done|]. destruct H as [H|[H1 H2]]; [by left|by right].
    Qed.
    Lemma F_wide n : (n0 <= n)%nat → all_at (wide (fakes (F n0)) (F n)) ∧ served (wide (fakes (F n0)) (F n)).
    Proof.
      intros Hn. replace n with (n0 + (n - n0))%nat by lia. induction (n - n0)%nat as [|d [IH1 IH2]].
      - rewrite Nat.add_0_r. apply wide_begin, F_at.
      - rewrite Nat.add_succ_r, F_S. rewrite (surjective_pairing (ev (n0 + d)%nat)).
        apply wide_step; try done; [apply F_dead_empty|apply F_event|]. apply F_lives'. lia.
    Qed.
    Lemma F_work n : (n0 <= n)%nat → (dead (F (S n)) <= dead (F n))%nat ∧
      (opens (F n) (ev n) ∨ (dead (F (S n)) < dead (F n))%nat ∨ (work (all_tasks (F (S n))) <= work (all_tasks (F n)))%nat).
    Proof.
      intros Hn. rewrite F_S, (surjective_pairing (ev n)).
      apply fleet_work; [apply F_dead_empty|apply F_event|]. by apply F_lives'.
    Qed.
    Lemma dead_le n d : (n0 <= n)%nat → (dead (F (n + d)) <= dead (F n))%nat.
    Proof.
      intros Hn. induction d as [|d IH]; [by rewrite Nat.add_0_r|]. rewrite Nat.add_succ_r.
      destruct (F_work (n + d)) as [H _]; [lia|]. lia.
    Qed.
    Lemma F_until n d : (n0 <= n)%nat →
      (∃ k, (n <= k < n + d)%nat ∧ opens (F k) (ev k)) ∨
      (∃ k, (n <= k < n + d)%nat ∧ (dead (F (S k)) < dead (F k))%nat) ∨
      (work (all_tasks (F (n + d))) <= work (all_tasks (F n)))%nat.
    Proof.
      intros Hn. induction d as [|d [(k&Hk&Ho)|[(k&Hk&Ho)|IH]]].
      - right; right. by rewrite Nat.add_0_r.
      - left. exists k. split; [lia|done].
      - right; left. exists k. split; [lia|done].
      - destruct (F_work (n + d)) as [_ [H|[H|H]]]; [lia|..].
        + left. exists (n + d)%nat. split; [lia|done].
        + right; left. exists (n + d)%nat. split; [lia|done].
        + right; right. rewrite Nat.add_succ_r. lia.
    Qed.
    Lemma all_tasks_in f t : t ∈ all_tasks f → ∃ i m, f_members f !! i = Some m ∧ t ∈ m_tasks m.
    Proof.
      unfold all_tasks. intros H. apply elem_of_list_In, in_concat in H as (l & H1 & H2).
      apply elem_of_list_In in H1, H2. apply elem_of_list_fmap in H1 as (m & -> & Hm).
      apply elem_of_list_lookup in Hm as [i Hi]. eauto.
    Qed.
    Lemma in_all_tasks f i m t : f_members f !! i = Some m → t ∈ m_tasks m → t ∈ all_tasks f.
    Proof.
      intros Hm Ht. destruct (tasks_split f i m Hm) as (o & -> & _). apply elem_of_app. by right.
    Qed.
    Lemma tasked_lives n i m t : f_members (F n) !! i = Some m → t ∈ m_tasks m → lives (F n) i.
    Proof.
      intros Hm Ht. exists m. split; [done|]. destruct (m_alive m) eqn:E; [done|].
      rewrite (Forall_lookup_1 _ _ _ _ (F_dead_empty n) Hm E) in Ht. by apply elem_of_nil in Ht.
    Qed.
    Lemma F_opens_again n : (n0 <= n)%nat → ∃ k, (n <= k)%nat ∧ opens (F k) (ev k).
    Proof.
      remember (dead (F n)) as D eqn:ED. assert (dead (F n) <= D)%nat as HD by lia. clear ED. revert n HD.
      induction D as [D IHD] using lt_wf_ind. intros n HD Hn.
      remember (work (all_tasks (F n))) as x eqn:Ex. revert n HD Hn Ex.
      induction (lt_wf x) as [x _ IH]. intros n HD Hn ->.
      assert (∀ k, (n <= k)%nat → (dead (F (S k)) < dead (F k))%nat → ∃ k, (n <= k)%nat ∧ opens (F k) (ev k)) as Hstart.
      { intros k Hk Hd. pose proof (dead_le n (k - n) Hn) as Hle. replace (n + (k - n))%nat with k in Hle by lia.
        destruct (IHD (dead (F (S k))) ltac:(lia) (S k) ltac:(lia) ltac:(lia)) as (k' & Hk' & Ho).
        exists k'. split; [lia|done]. }
      destruct (all_tasks (F n)) as [|t ts] eqn:Et.
      - destruct (Hticks n) as (k & i & Hk & Hev & m & Em & Hal).
        destruct (F_until n (k - n) Hn) as [(k'&Hk'&Ho)|[(k'&Hk'&Hd)|Hw]].
        + exists k'. split; [lia|done].
        + apply (Hstart k'); [lia|done].
        + replace (n + (k - n))%nat with k in Hw by lia. exists k. split; [done|]. rewrite Hev. split; [done|]. cbn [fst].
          assert (all_tasks (F k) = []) as Ht. { apply work_nil. rewrite Et in Hw. change (work []) with 0%nat in Hw. lia. }
          unfold has_slot. rewrite Em, Hal. cbn [andb]. apply Nat.ltb_lt.
          destruct (F_wide k ltac:(lia)) as [Ha Hs]. pose proof (no_tasks_running _ _ Ha Hs Ht) as Hr.
          pose proof (fakes_length (F n0)). pose proof (proj2 (proj2 Hh) k i m ltac:(lia) Em Hal). lia.
      - destruct (all_tasks_in (F n) t) as (i & m & Em & Hin); [rewrite Et; left|].
        destruct (Hpolls n i m t Hn Em Hin) as (k & y & u & m' & t' & Hk & Hev & Em' & Hy & _).
        destruct (F_until n (k - n) Hn) as [(k'&Hk'&Ho)|[(k'&Hk'&Hd)|Hw]].
        + exists k'. split; [lia|done].
        + apply (Hstart k'); [lia|done].
        + replace (n + (k - n))%nat with k in Hw by lia.
          destruct (fleet_poll (F k) i m' y u t') as [Hp _]; [apply F_dead_empty|done|done| |].
          { rewrite <-Hev, <-F_S. apply F_lives; [lia|]. left.
            eapply tasked_lives; [exact Em'|]. by eapply elem_of_list_lookup_2. }
          rewrite <-Hev, <-F_S in Hp.
          pose proof (dead_le n (S k - n) Hn) as Hle. replace (n + (S k - n))%nat with (S k) in Hle by lia.
          destruct (IH (work (all_tasks (F (S k))))) with (n := S k) as (k' & Hk' & Ho); [|lia|lia|done|].
          * rewrite <-Et. lia.
          * exists k'. split; [lia|done].
    Qed.
    Lemma F_many n K : (n0 <= n)%nat → ∃ d, (K <= useful_ticks prof sched name clock (F n) (map ev (seq n d)))%nat.
    Proof.
      intros Hn. induction K as [|K [d IH]]; [exists 0%nat; lia|].
      destruct (F_opens_again (n + d) ltac:(lia)) as (k & Hk & Ho1 & Ho2).
      exists (S (k - n)). rewrite seq_S, map_app, useful_app. cbn [map SpecFleetLive.useful_ticks].
      rewrite <-F_add. replace (n + (k - n))%nat with k by lia. rewrite Ho1, Ho2.
      replace (k - n)%nat with (d + (k - n - d))%nat by lia.
      rewrite seq_app, map_app, useful_app. lia.
    Qed.

    (** A task is polled, unchanged. *)
    Lemma F_polled n i m t : (n0 <= n)%nat → f_members (F n) !! i = Some m → t ∈ m_tasks m →
      ∃ k x u m', (n <= k)%nat ∧ ev k = (i, EvTask x u) ∧ f_members (F k) !! i = Some m' ∧ m_tasks m' !! x = Some t.
    Proof.
      intros Hn Em Ht. destruct (Hpolls n i m t Hn Em Ht) as (k & x & u & m' & t' & Hk & Hev & Em' & Hx & Htid).
      assert (∀ d, (∃ k x u m', (n <= k < n + d)%nat ∧ ev k = (i, EvTask x u) ∧ f_members (F k) !! i = Some m' ∧ m_tasks m' !! x = Some t) ∨
        ∃ m', f_members (F (n + d)%nat) !! i = Some m' ∧ t ∈ m_tasks m') as Hd.
      { induction d as [|d [(k1&x1&u1&m1&Hk1&H)|(m1&Em1&Ht1)]].
        - right. rewrite Nat.add_0_r. eauto.
        - left. exists k1, x1, u1, m1. split; [lia|done].
        - destruct (fleet_stays (F (n + d)%nat) (ev (n + d)%nat) i m1 t) as [(x1&u1&H1&H2)|H1]; try done.
          + apply F_dead_empty.
          + apply F_nodup.
          + apply F_event.
          + rewrite <-F_S. apply F_lives; [lia|]. left. by eapply tasked_lives.
          + left. exists (n + d)%nat, x1, u1, m1. split; [lia|done].
          + right. by rewrite Nat.add_succ_r, F_S. }
      destruct (Hd (k - n)%nat) as [(k1&x1&u1&m1&Hk1&H)|(m1&Em1&Ht1)].
      - exists k1, x1, u1, m1. split; [lia|done].
      - replace (n + (k - n))%nat with k in Em1 by lia. rewrite Em1 in Em'. injection Em' as ->.
        exists k, x, u, m'. split; [done|]. split; [done|]. split; [done|].
        apply elem_of_list_lookup in Ht1 as [x' Hx'].
        assert (x' = x) as ->; [|done].
        destruct (tasks_split (F k) i m' Em1) as (o & Ho & _).
        pose proof (F_nodup k) as Hnd. rewrite Ho, map_app in Hnd. apply NoDup_app in Hnd as (_ & _ & Hnd).
        apply (NoDup_lookup (map tid (m_tasks m')) _ _ (tid t)); [done|..]; rewrite list_lookup_fmap.
        + by rewrite Hx'.
        + rewrite Hx. cbn. by rewrite Htid.
    Qed.
    Lemma F_runs_le id n d : (length (f_runs_of id (F n)) <= length (f_runs_of id (F (n + d))))%nat.
    Proof.
      induction d as [|d IH]; [by rewrite Nat.add_0_r|]. rewrite Nat.add_succ_r, F_S, (surjective_pairing (ev (n + d)%nat)).
      destruct (F_at (n + d)%nat id) as [p Hp].
      destruct (fleet_life prof sched name clock (F (n + d)%nat) (ev (n + d)%nat).1 (ev (n + d)%nat).2) as [_ H];
        [apply F_event|apply F_at|].
      destruct (H id p Hp) as (p' & new & _ & _ & ->). rewrite app_length. lia.
    Qed.
    Lemma F_poll_step n i m t : (n0 <= n)%nat → f_members (F n) !! i = Some m → t ∈ m_tasks m →
      ∃ k u m', (n <= k)%nat ∧ f_runs (F (S k)) = f_runs (F k) ++ started t ∧ f_members (F (S k)) !! i = Some m' ∧
        match next t u with Some t' => t' ∈ m_tasks m' | None => tid t ∉ map tid (all_tasks (F (S k))) end.
    Proof.
      intros Hn Em Ht. destruct (F_polled n i m t Hn Em Ht) as (k & x & u & m1 & Hk & Hev & Em1 & Hx).
      destruct (fleet_poll (F k) i m1 x u t) as (_ & Hr & m' & o & Em' & Ho & Ho' & Hts); [apply F_dead_empty|done|done| |].
      { rewrite <-Hev, <-F_S. apply F_lives; [lia|]. left.
        eapply tasked_lives; [exact Em1|]. by eapply elem_of_list_lookup_2. }
      rewrite <-Hev, <-F_S in *. exists k, u, m'. split; [done|]. split; [done|]. split; [done|].
      destruct (next t u) as [t'|].
      - rewrite Hts. apply elem_of_list_lookup. exists x. apply list_lookup_insert. by eapply lookup_lt_Some.
      - rewrite Ho', Hts. pose proof (F_nodup k) as Hnd. rewrite Ho in Hnd.
        rewrite <-(take_drop_middle (m_tasks m1) x t Hx) in Hnd. rewrite delete_take_drop.
        assert (o ++ take x (m_tasks m1) ++ t :: drop (S x) (m_tasks m1) ≡ₚ t :: o ++ take x (m_tasks m1) ++ drop (S x) (m_tasks m1)) as Hp.
        { rewrite !app_assoc. symmetry. apply Permutation_middle. }
        rewrite Hp in Hnd. cbn [map] in Hnd. by apply list.NoDup_cons in Hnd as [? _].
    Qed.
    Lemma F_task_ok n i m t : f_members (F n) !! i = Some m → t ∈ m_tasks m → task_ok t.
    Proof.
      intros Em Ht. pose proof (in_all_tasks (F n) i m t Em Ht) as Hin. apply elem_of_list_lookup in Hin as [x Hx].
      destruct (at_task_of name (whole (F n)) x t (F_at n) Hx) as (_ & _ & H). done.
    Qed.
    Lemma F_executes n i m t : (n0 <= n)%nat → f_members (F n) !! i = Some m → t ∈ m_tasks m → t_phase t = Spawned →
      ∃ k m' t', (n <= k)%nat ∧ (length (f_runs_of (tid t) (F n)) < length (f_runs_of (tid t) (F k)))%nat ∧
        f_members (F k) !! i = Some m' ∧ t' ∈ m_tasks m' ∧ tid t' = tid t.
    Proof.
      intros Hn Em Ht Hp. pose proof (F_task_ok n i m t Em Ht) as (_ & Hst & Hj). rewrite Hp in Hj.
      destruct (F_poll_step n i m t Hn Em Ht) as (k1 & u1 & m1 & Hk1 & Hr1 & Em1 & H1). unfold next in H1. rewrite Hp in H1.
      assert (is_cancelled (t_job t) = false) as Hc.
      { rewrite Hj. unfold is_cancelled. rewrite Hst. done. }
      rewrite Hc in H1. destruct (F_poll_step (S k1) i m1 _ ltac:(lia) Em1 H1) as (k2 & u2 & m2 & Hk2 & Hr2 & Em2 & H2).
      eexists (S k2), m2, _. split; [lia|]. split; [|split; [done|split; [exact H2|done]]].
      pose proof (F_runs_le (tid t) n (k2 - n)) as Hle. replace (n + (k2 - n))%nat with k2 in Hle by lia.
      unfold f_runs_of in *. rewrite Hr2, list.filter_app, app_length. unfold started. cbn [t_phase t_job].
      rewrite filter_cons_True by (cbn; unfold tid; by rewrite Hj). cbn [length]. lia.
    Qed.
    Lemma F_completes n i m t : (n0 <= n)%nat → f_members (F n) !! i = Some m → t ∈ m_tasks m →
      ∃ k, (n <= k)%nat ∧ tid t ∉ map tid (all_tasks (F k)).
    Proof.
      intros Hn Em Ht. remember (LiveFacts.left_ (t_phase t)) as x eqn:Ex. revert n m t Ex Hn Em Ht.
      induction (lt_wf x) as [x _ IH]. intros n m t -> Hn Em Ht.
      destruct (F_poll_step n i m t Hn Em Ht) as (k & u & m' & Hk & _ & Em' & H).
      destruct (next t u) as [t'|] eqn:E; [|exists (S k); split; [lia|done]].
      assert (tid t' = tid t ∧ (LiveFacts.left_ (t_phase t') < LiveFacts.left_ (t_phase t))%nat) as [H1 H2].
      { unfold next in E. destruct (t_phase t); [destruct (is_cancelled _)|..]; try done;
          injection E as <-; (split; [done|cbn; lia]). }
      destruct (IH _ H2 (S k) m' t' eq_refl ltac:(lia) Em' H) as (k' & Hk' & H3). exists k'. split; [lia|]. by rewrite <-H1.
    Qed.
    Lemma F_taken n i id : (n0 <= n)%nat → taken_by (F n) i id →
      ∃ k1 k2, (n <= k1 <= k2)%nat ∧ (length (f_runs_of id (F n)) < length (f_runs_of id (F k1)))%nat ∧
        id ∉ map tid (all_tasks (F k2)).
    Proof.
      intros Hn (m & t & Em & _ & Ht & <- & Hp).
      destruct (F_executes n i m t Hn Em Ht Hp) as (k1 & m1 & t1 & Hk1 & Hr & Em1 & Ht1 & E).
      destruct (F_completes k1 i m1 t1 ltac:(lia) Em1 Ht1) as (k2 & Hk2 & H). rewrite E in H.
      exists k1, k2. split; [lia|]. done.
    Qed.

    Section job.
      Context (a : nat) (id : string) (j : job M) (B : nat).
      Context (Ha : (n0 <= a)%nat) (Hq : at_ (whole (F a)) id (PQueued j)).
      Context (Hd : ∀ n, (a <= n)%nat → ¬ submits id (ev n).2 ∧ (ev n).2 ≠ EvCancel id).
      Context (HB : Z.of_nat B <= i32_max).
      Context (Harr : ∀ d, (length (qlist (f_world (F a)) Queued) +
        fleet_arrivals prof sched name clock (F a) (map ev (seq a d)) <= B)%nat).

      Lemma F_fits d : fits name (f_world (F (a + d)%nat)).
      Proof.
        unfold fits. pose proof (f_arrivals_len (F a) (map ev (seq a d))) as H. rewrite <-F_add in H.
        specialize (Harr d). lia.
      Qed.
      Lemma F_waits d : at_ (whole (F (a + d)%nat)) id (PQueued j) ∨
        ∃ k i, (a <= k < a + d)%nat ∧ taken_by (F (S k)) i id.
      Proof.
        induction d as [|d [IH|(k&i&Hk&H)]].
        - left. by rewrite Nat.add_0_r.
        - rewrite Nat.add_succ_r.
          destruct (waits_or_taken (F (a + d)%nat) (ev (a + d)%nat).1 (ev (a + d)%nat).2 id j) as [H|H]; try done.
          + apply F_at.
          + apply F_event.
          + destruct (Hd (a + d)%nat ltac:(lia)). by intros [?|?].
          + apply F_fits.
          + left. rewrite F_S. by rewrite <-surjective_pairing in H.
          + right. exists (a + d)%nat, (ev (a + d)%nat).1. split; [lia|]. rewrite F_S. by rewrite <-surjective_pairing in H.
        - right. exists k, i. split; [lia|done].
      Qed.
      Lemma F_reads_le n d : (reads (f_world (F n)) <= reads (f_world (F (n + d)%nat)))%nat.
      Proof.
        induction d as [|d IH]; [by rewrite Nat.add_0_r|]. rewrite Nat.add_succ_r, F_S.
        pose proof (fleet_reads prof sched name clock (F (n + d)%nat) (ev (n + d)%nat)). lia.
      Qed.
      Lemma F_reads_grow K :
        (∃ k i, (a <= k)%nat ∧ taken_by (F (S k)) i id) ∨
        ∃ d, (K <= reads (f_world (F (a + d)%nat)))%nat ∧ at_ (whole (F (a + d)%nat)) id (PQueued j).
      Proof.
        induction K as [|K [IH|(d&HK&IH)]].
        - right. exists 0%nat. split; [lia|]. by rewrite Nat.add_0_r.
        - by left.
        - destruct (F_opens_again (a + d) ltac:(lia)) as (k & Hk & Ho).
          destruct (F_waits (k - a)) as [Hw|(k'&i&Hk'&Hw)]; [|left; exists k', i; split; [lia|done]].
          destruct (F_waits (S k - a)) as [Hw'|(k'&i&Hk'&Hw')]; [|left; exists k', i; split; [lia|done]].
          right. exists (S k - a)%nat. replace (a + (S k - a))%nat with (S k) in * by lia.
          pose proof (F_fits (k - a)) as Hf.
          replace (a + (k - a))%nat with k in * by lia. split; [|done].
          assert (reads (f_world (F k)) < reads (f_world (F (S k))))%nat.
          { rewrite F_S. apply (opens_read (F k) (ev k) id); try done; [apply F_at|].
            apply cnt_pos. destruct Hw as [(_ & Hc & _) _]. cbn in Hc. lia. }
          pose proof (F_reads_le (a + d) (k - (a + d))) as Hle. replace (a + d + (k - (a + d)))%nat with k in Hle by lia. lia.
      Qed.
      Lemma F_taken_later : (∃ k0, ∀ i k, (k0 <= k)%nat → due j (clock i k)) → ∃ k i, (a <= k)%nat ∧ taken_by (F (S k)) i id.
      Proof.
        intros [k0 Hdue]. destruct (F_reads_grow k0) as [H|(d & Hk & Hp)]; [done|].
        destruct (F_many (a + d) B ltac:(lia)) as [d' Hd'].
        assert (length (qlist (f_world (F (a + d)%nat)) Queued) +
          fleet_arrivals prof sched name clock (F (a + d)%nat) (map ev (seq (a + d) d')) <= B)%nat as Hb.
        { specialize (Harr (d + d')%nat). rewrite seq_app, map_app, f_arrivals_app, <-F_add in Harr.
          pose proof (f_arrivals_len (F a) (map ev (seq a d))) as Hl. rewrite <-F_add in Hl. lia. }
        destruct (fleet_progress prof sched name clock (map ev (seq (a + d) d')) (F (a + d)%nat) id j)
          as [(es1 & i & e & es2 & E & Htk)|[H1 H2]]; try done.
        - apply F_at.
        - pose proof (F_ok (a + d + d')) as Ho. rewrite seq_app, map_app in Ho. apply ok_fleet_app in Ho as [_ Ho]. exact Ho.
        - intros i k Hk'. apply Hdue. lia.
        - apply list.Forall_forall. intros ie Hie. apply elem_of_list_fmap in Hie as (k & -> & Hk').
          apply elem_of_seq in Hk'. destruct (Hd k ltac:(lia)). by intros [?|?].
        - lia.
        - exists (a + d + length es1)%nat, i. split; [lia|].
          rewrite F_S. replace (ev (a + d + length es1)%nat) with (i, e).
          + rewrite F_add. unfold fleet_run in *. rewrite fold_left_app in Htk. cbn in Htk.
            assert (es1 = map ev (seq (a + d) (length es1))) as <-; [|done].
            assert (take (length es1) (map ev (seq (a + d) d')) = es1) as <- by (by rewrite E, take_app).
            assert (length es1 <= d')%nat. { apply (f_equal length) in E. rewrite map_length, seq_length, app_length in E. lia. }
            replace d' with (length es1 + (d' - length es1))%nat by lia. rewrite seq_app, map_app.
            rewrite take_app_alt by (by rewrite map_length, seq_length). by rewrite map_length, seq_length.
          + assert (map ev (seq (a + d) d') !! length es1 = Some (i, e)) as Hl by (by rewrite E, list_lookup_middle).
            rewrite list_lookup_fmap in Hl. apply fmap_Some in Hl as (k & Hk' & ->).
            apply lookup_seq in Hk' as [-> _]. done.
        - exfalso. apply elem_of_list_split in H2 as (l1 & l2 & El). rewrite El, app_length in H1. cbn in H1. lia.
      Qed.
    End job.

    Lemma F_progress a id j B :
      (n0 <= a)%nat → id ∈ qlist (f_world (F a)) Queued → stored (f_world (F a)) id = Some j →
      (∃ k0, ∀ i k, (k0 <= k)%nat → due j (clock i k)) →
      (∀ n, (a <= n)%nat → ¬ submits id (ev n).2 ∧ (ev n).2 ≠ EvCancel id) →
      Z.of_nat B <= i32_max →
      (∀ d, (length (qlist (f_world (F a)) Queued) + fleet_arrivals prof sched name clock (F a) (map ev (seq a d)) <= B)%nat) →
      ∃ k1 k2, (a <= k1 <= k2)%nat ∧ (length (f_runs_of id (F a)) < length (f_runs_of id (F k1)))%nat ∧
        id ∉ map tid (all_tasks (F k2)).
    Proof.
      intros Hn Hin Hs Hdue Hd HB Harr.
      destruct (all_at_stored name (whole (F a)) id (F_at a) Hin) as (j0 & Hs0 & Hp). cbn in Hs0. rewrite Hs0 in Hs. injection Hs as ->.
      destruct (F_taken_later a id j B Hn Hp Hd HB Harr Hdue) as (k & i & Hk & Htk).
      destruct (F_taken (S k) i id ltac:(lia) Htk) as (k1 & k2 & Hk1 & Hr & Hno).
      exists k1, k2. split; [lia|]. split; [|done].
      pose proof (F_runs_le id a (S k - a)) as Hle. replace (a + (S k - a))%nat with (S k) in Hle by lia. lia.
    Qed.
  End run.
End many.
