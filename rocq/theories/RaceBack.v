(** The races of a single process are the histories of Sys.v with failing calls and crashes. *)
From Verif Require Import Spec SpecRace BackendFacts WorldFacts RaceSim.

Section from.
  Context {M : Type} `{SM : Serde M}.
  Context (prof : profile).
  Context (sched : string → option (time → option time)).
  Context (name : string).
  Context (clock : nat → time).
  Notation fh faults := (faulty_h clock faults).
  Notation step f := (sys_step (M := M) prof sched name (fh f)).
  Definition from (n : nat) (f g : nat → fault) : Prop := ∀ k, (n <= k)%nat → f k = g k.

  Lemma call_from n f g X (e : eff X) w :
    from n f g → (n <= ops w)%nat →
    fh f X e w = fh g X e w ∧ (n <= ops (fh f X e w).1)%nat.
  Proof.
    intros H Hn. unfold faulty_h. rewrite <-(H (ops w)) by done. split; [done|].
    destruct (fail_ans e); [destruct (f (ops w))|]; try (cbn; lia); destruct (mem_h _ _ _ _); cbn; lia.
  Qed.
  Lemma run_from {A} n f g (p : prog A) w :
    from n f g → (n <= ops w)%nat →
    run (fh f) p w = run (fh g) p w ∧ (n <= ops (run (fh f) p w).1)%nat.
  Proof.
    intros H. revert w. induction p as [a| | |X e k IH]; intros w Hw; try done. cbn [run].
    destruct (call_from n f g X e w H Hw) as [E1 E2]. rewrite <-E1. destruct (fh f X e w) as [w' x]. by apply IH.
  Qed.
  Lemma run_n_from {A} n f g m (p : prog A) w :
    from n f g → (n <= ops w)%nat →
    run_n (fh f) m p w = run_n (fh g) m p w ∧ (n <= ops (run_n (fh f) m p w))%nat.
  Proof.
    intros H. revert p w. induction m as [|m IH]; intros p w Hw; [done|].
    destruct p as [a| | |X e k]; try done. cbn [run_n].
    destruct (call_from n f g X e w H Hw) as [E1 E2]. rewrite <-E1. destruct (fh f X e w) as [w' x]. by apply IH.
  Qed.
  Lemma step_from n f g s e :
    from n f g → (n <= ops (sw s))%nat → step f s e = step g s e ∧ (n <= ops (sw (step f s e).1))%nat.
  Proof.
    intros H Hs.
    assert (commit prof sched name (fh f) s e = commit prof sched name (fh g) s e ∧
      (n <= ops (sw (commit prof sched name (fh f) s e).1))%nat) as Hc.
    { unfold commit. destruct (run_from n f g (ev_prog prof sched name (cfg s) (tasks s) e) (sw s) H Hs) as [E1 E2].
      rewrite <-E1. destruct (run (fh f) _ _) as [w [[[[c ts] js] a]| |]]; done. }
    assert (Hm : ∀ e' m (r : response M),
      (Sys (run_n (fh f) m (ev_prog prof sched name (cfg s) (tasks s) e') (sw s)) (cfg s) [] false (runs s), r) =
      (Sys (run_n (fh g) m (ev_prog prof sched name (cfg s) (tasks s) e') (sw s)) (cfg s) [] false (runs s), r) ∧
      (n <= ops (run_n (fh f) m (ev_prog prof sched name (cfg s) (tasks s) e') (sw s)))%nat).
    { intros e' m r. destruct (run_n_from n f g m (ev_prog prof sched name (cfg s) (tasks s) e') (sw s) H Hs) as [E1 E2].
      by rewrite <-E1. }
    unfold sys_step. destruct (alive s); destruct e as [| | | | | | | | |e' m|]; try done.
    - destruct e'; try done; apply Hm.
    - destruct e'; try done; apply Hm.
  Qed.
  Lemma sys_from n f g s es :
    from n f g → (n <= ops (sw s))%nat →
    sys_run prof sched name (fh f) s es = sys_run prof sched name (fh g) s es.
  Proof.
    intros H. unfold sys_run. revert s. induction es as [|e es IH]; intros s Hs; [done|]. cbn [fold_left].
    destruct (step_from n f g s e H Hs) as [E1 E2]. rewrite <-E1. by apply IH.
  Qed.
End from.

Section back.
  Context {M : Type} `{SM : Serde M}.
  Context (prof : nat → profile).
  Context (sched : nat → string → option (time → option time)).
  Context (name : nat → string).
  Context (clock : nat → nat → time).
  Notation mem := (λ i, mem_h (clock i)).
  Notation rrun := (race_run prof sched name mem).
  Notation fh faults := (faulty_h (clock 0%nat) faults).
  Notation srun f := (sys_run (M := M) (prof 0%nat) (sched 0%nat) (name 0%nat) (fh f)).

  Definition until (n : nat) (f g : nat → fault) : Prop := ∀ k, (k < n)%nat → f k = g k.

  (** The step [p] is under way: it is completed, or cut off. *)
  Lemma busy_back xs c ts a e (p : prog step_result) w n rs (as_ : list (nat * event M * response M)) :
    idle (rrun (Race w [Proc c ts a (Some (e, p))] rs as_) xs) 0 →
    ∃ f ys zs w' n', xs = ys ++ zs ∧ (length zs < length xs)%nat ∧
      ((∃ m, (∀ g, until n' g f → run_n (fh g) m p (FWorld w n) = FWorld w' n') ∧
          rrun (Race w [Proc c ts a (Some (e, p))] rs as_) ys = Race w' [Proc c [] false None] rs as_) ∨
       (∃ o, (∀ g, until n' g f → run (fh g) p (FWorld w n) = (FWorld w' n', o)) ∧
          match o with
          | Done (c', ts', js, x) => rrun (Race w [Proc c ts a (Some (e, p))] rs as_) ys =
              Race w' [Proc c' ts' true None] (rs ++ map (pair 0%nat) js) (as_ ++ [(0%nat, e, x)])
          | _ => rrun (Race w [Proc c ts a (Some (e, p))] rs as_) ys = Race w' [Proc c [] false None] rs as_
          end)).
  Proof.
    revert p w n. induction xs as [|x xs IH]; intros p w n Hi.
    { destruct Hi as (q & Hq & Hn). injection Hq as <-. done. }
    change (rrun ?r (x :: xs)) with (rrun (race_step prof sched name mem r x) xs) in Hi.
    assert (Hskip : race_step prof sched name mem (Race w [Proc c ts a (Some (e, p))] rs as_) x =
        Race w [Proc c ts a (Some (e, p))] rs as_ →
      ∃ f ys zs w' n', x :: xs = ys ++ zs ∧ (length zs < length (x :: xs))%nat ∧
      ((∃ m, (∀ g, until n' g f → run_n (fh g) m p (FWorld w n) = FWorld w' n') ∧
          rrun (Race w [Proc c ts a (Some (e, p))] rs as_) ys = Race w' [Proc c [] false None] rs as_) ∨
       (∃ o, (∀ g, until n' g f → run (fh g) p (FWorld w n) = (FWorld w' n', o)) ∧
          match o with
          | Done (c', ts', js, x) => rrun (Race w [Proc c ts a (Some (e, p))] rs as_) ys =
              Race w' [Proc c' ts' true None] (rs ++ map (pair 0%nat) js) (as_ ++ [(0%nat, e, x)])
          | _ => rrun (Race w [Proc c ts a (Some (e, p))] rs as_) ys = Race w' [Proc c [] false None] rs as_
          end))).
    { intros E. rewrite E in Hi. destruct (IH p w n Hi) as (f & ys & zs & w' & n' & -> & Hl & H).
      exists f, (x :: ys), zs, w', n'. split; [done|]. split; [cbn; lia|].
      change (rrun ?r (x :: ys)) with (rrun (race_step prof sched name mem r x) ys). rewrite E. exact H. }
    destruct x as [i e' fuel|i f|i]; (destruct i as [|i]; [|by apply Hskip]).
    - by apply Hskip.
    - destruct p as [[[[c' ts'] js] x]| | |X e' k].
      + exists (λ _, FOk), [RCall 0 f], xs, w, n. split; [done|]. split; [cbn; lia|]. right. by eexists.
      + exists (λ _, FOk), [RCall 0 f], xs, w, n. split; [done|]. split; [cbn; lia|]. right. by eexists.
      + exists (λ _, FOk), [RCall 0 f], xs, w, n. split; [done|]. split; [cbn; lia|]. right. by eexists.
      + cbn -[call_h race_run] in Hi. unfold race_call in Hi. cbn -[call_h race_run] in Hi.
        destruct (call_h mem 0 f X e' w) as [w1 x] eqn:Ec.
        set (n1 := match fail_ans e' with Some _ => S n | None => n end).
        destruct (IH (k x) w1 n1 Hi) as (f1 & ys & zs & w' & n' & -> & Hl & H).
        assert (Hstep : ∀ g, (match fail_ans e' with Some _ => g n = f | None => True end) →
          fh g X e' (FWorld w n) = (FWorld w1 n1, x)).
        { intros g Hg. subst n1. revert Ec Hg. unfold call_h, faulty_h. cbn [ops fw].
          destruct (fail_ans e') as [bad|]; [|by intros ->; cbn; intros _]. intros Ec ->. 
          destruct f; [|by injection Ec as <- <-|]; rewrite ?Ec; try done. destruct (mem_h _ _ _ _); by injection Ec as <- <-. }
        assert (Hmono : match fail_ans e' with Some _ => (n < n')%nat | None => True end).
        { destruct (fail_ans e'); [|done]. subst n1.
          destruct H as [(m & H & _)|(o & H & _)]; specialize (H f1 (λ _ _, eq_refl)).
          - pose proof (run_n_from (clock 0%nat) (S n) f1 f1 m (k x) (FWorld w1 (S n)) (λ _ _, eq_refl) (le_n _)) as [_ H2].
            rewrite H in H2. cbn in H2. lia.
          - pose proof (run_from (clock 0%nat) (S n) f1 f1 (k x) (FWorld w1 (S n)) (λ _ _, eq_refl) (le_n _)) as [_ H2].
            rewrite H in H2. cbn in H2. lia. }
        assert (Hg : ∀ g, until n' g (λ k, match fail_ans e' with Some _ => if (k =? n)%nat then f else f1 k | None => f1 k end) →
          fh g X e' (FWorld w n) = (FWorld w1 n1, x) ∧
          ∃ g', until n' g' f1 ∧ from n1 g' g).
        { intros g Hu. split.
          - apply Hstep. destruct (fail_ans e'); [|done]. rewrite Hu by done. by rewrite Nat.eqb_refl.
          - destruct (fail_ans e'); [|by exists g]. exists (λ k, if (k =? n)%nat then f1 k else g k). split.
            + intros k' Hk'. destruct (k' =? n)%nat eqn:Ek; [done|]. rewrite Hu by done. by rewrite Ek.
            + intros k' Hk'. subst n1. rewrite (proj2 (Nat.eqb_neq _ _)) by lia. done. }
        exists (λ k, match fail_ans e' with Some _ => if (k =? n)%nat then f else f1 k | None => f1 k end),
          (RCall 0 f :: ys), zs, w', n'. split; [done|]. split; [cbn; lia|].
        change (rrun ?r (RCall 0 f :: ys)) with (rrun (race_step prof sched name mem r (RCall 0 f)) ys).
        cbn -[call_h race_run]. unfold race_call. cbn -[call_h race_run run_n run]. rewrite Ec.
        destruct H as [(m & H1 & H2)|(o & H1 & H2)].
        * left. exists (S m). split; [|exact H2]. intros g Hu. destruct (Hg g Hu) as (E & g' & Hu' & Hf).
          cbn [run_n]. rewrite E. rewrite <-(proj1 (run_n_from (clock 0%nat) n1 g' g m (k x) (FWorld w1 n1) Hf (le_n _))).
          by apply H1.
        * right. exists o. split; [|exact H2]. intros g Hu. destruct (Hg g Hu) as (E & g' & Hu' & Hf).
          cbn [run]. rewrite E. rewrite <-(proj1 (run_from (clock 0%nat) n1 g' g (k x) (FWorld w1 n1) Hf (le_n _))).
          by apply H1.
    - exists (λ _, FOk), [RDie 0], xs, w, n. split; [done|]. split; [cbn; lia|]. left. by exists 0%nat.
  Qed.

  (** The state of the race and the state of the history. *)
  Definition alike (r : race M world) (s : sys fworld M) : Prop :=
    r_world r = fw (sw s) ∧ r_procs r = [Proc (cfg s) (tasks s) (alive s) None] ∧ map snd (r_runs r) = runs s.
  Lemma idle_back k xs : (length xs <= k)%nat → ∀ r (s : sys fworld M),
    alike r s → Forall (λ x, match x with RBegin _ _ fuel => fuel = 0%nat | _ => True end) xs →
    idle (rrun r xs) 0 →
    ∃ f es, alike (rrun r xs) (srun f s es).
  Proof.
    revert xs. induction k as [|k IH]; intros xs Hl r s Ha Hx Hi.
    { destruct xs; [|cbn in Hl; lia]. by exists (λ _, FOk), []. }
    destruct xs as [|x xs]; [by exists (λ _, FOk), []|].
    apply Forall_cons_1 in Hx as [Hx1 Hx]. cbn in Hl. apply le_S_n in Hl.
    change (rrun r (x :: xs)) with (rrun (race_step prof sched name mem r x) xs) in *.
    assert (Hnext : ∀ r1 f1 e1, alike r1 (srun f1 s [e1]) → ∀ ys zs, (length zs <= k)%nat →
      Forall (λ x, match x with RBegin _ _ fuel => fuel = 0%nat | _ => True end) zs → ys = rrun r1 zs → idle ys 0 →
      (∀ g, until (ops (sw (srun f1 s [e1]))) g f1 → srun g s [e1] = srun f1 s [e1]) →
      ∃ f es, alike ys (srun f s es)).
    { intros r1 f1 e1 Ha1 ys zs Hlz Hz -> Hi1 Hu. destruct (IH zs Hlz r1 _ Ha1 Hz Hi1) as (f2 & es & H2).
      set (n' := ops (sw (srun f1 s [e1]))) in *.
      set (g := λ k, if (k <? n')%nat then f1 k else f2 k).
      exists g, (e1 :: es). change (srun g s (e1 :: es)) with (srun g (srun g s [e1]) es).
      rewrite Hu.
      - rewrite (sys_from _ _ _ (clock 0%nat) n' g f2); [done| |done].
        intros k' Hk'. subst g. cbv beta. by rewrite (proj2 (Nat.ltb_ge _ _)).
      - intros k' Hk'. subst g. cbv beta. by rewrite (proj2 (Nat.ltb_lt _ _)). }
    pose proof Ha as (Hw & Hp & Hr).
    destruct r as [w ps rs as_]. cbn [r_world r_procs r_runs] in Hw, Hp, Hr. subst w ps.
    assert (Hskip : race_step prof sched name mem (Race (fw (sw s)) [Proc (cfg s) (tasks s) (alive s) None] rs as_) x =
        Race (fw (sw s)) [Proc (cfg s) (tasks s) (alive s) None] rs as_ →
      ∃ f es, alike (rrun (race_step prof sched name mem (Race (fw (sw s)) [Proc (cfg s) (tasks s) (alive s) None] rs as_) x) xs)
        (srun f s es)).
    { intros E. rewrite E in *. by apply (IH xs). }
    assert (Hdie : race_step prof sched name mem (Race (fw (sw s)) [Proc (cfg s) (tasks s) (alive s) None] rs as_) x =
        Race (fw (sw s)) [Proc (cfg s) [] false None] rs as_ →
      ∃ f es, alike (rrun (race_step prof sched name mem (Race (fw (sw s)) [Proc (cfg s) (tasks s) (alive s) None] rs as_) x) xs)
        (srun f s es)).
    { intros E. rewrite E in *.
      apply (Hnext (Race (fw (sw s)) [Proc (cfg s) [] false None] rs as_) (λ _, FOk)
        (if alive s then EvCrash else EvCrashIn EvStart 0)) with (zs := xs); try done.
      - unfold sys_run, sys_step. cbn [fold_left fst]. destruct (alive s); done.
      - intros g _. unfold sys_run, sys_step. cbn [fold_left fst]. destruct (alive s); done. }
    assert (Hbusy : ∀ e a, race_step prof sched name mem (Race (fw (sw s)) [Proc (cfg s) (tasks s) (alive s) None] rs as_) x =
        Race (fw (sw s)) [Proc (cfg s) (tasks s) a (Some (e, ev_prog (prof 0%nat) (sched 0%nat) (name 0%nat) (cfg s) (tasks s) e))] rs as_ →
      (∀ f, sys_step (prof 0%nat) (sched 0%nat) (name 0%nat) (fh f) s e = commit (prof 0%nat) (sched 0%nat) (name 0%nat) (fh f) s e) →
      (∀ f m, sys_step (prof 0%nat) (sched 0%nat) (name 0%nat) (fh f) s (EvCrashIn e m) =
        (Sys (run_n (fh f) m (ev_prog (prof 0%nat) (sched 0%nat) (name 0%nat) (cfg s) (tasks s) e) (sw s)) (cfg s) [] false (runs s), RNone)) →
      ∃ f es, alike (rrun (race_step prof sched name mem (Race (fw (sw s)) [Proc (cfg s) (tasks s) (alive s) None] rs as_) x) xs)
        (srun f s es)).
    { intros e a E Hc Hcut. rewrite E in Hi |- *.
      set (p := ev_prog (prof 0%nat) (sched 0%nat) (name 0%nat) (cfg s) (tasks s) e) in *.
      destruct (busy_back xs (cfg s) (tasks s) a e p (fw (sw s)) (ops (sw s)) rs as_ Hi)
        as (f & ys & zs & w' & n' & Exs & Hlen & H). unfold step_result in *.
      assert (length zs <= k)%nat as Hlz by lia.
      assert (Forall (λ x, match x with RBegin _ _ fuel => fuel = 0%nat | _ => True end) zs) as Hz.
      { rewrite Exs in Hx. by apply list.Forall_app in Hx as [_ Hx]. }
      assert (FWorld (fw (sw s)) (ops (sw s)) = sw s) as Esw by (by destruct (sw s)). rewrite Esw in H.
      assert (Er : ∀ r, rrun r xs = rrun (rrun r ys) zs).
      { intros r. rewrite Exs. apply rrun_app. }
      rewrite Er in Hi |- *.
      destruct H as [(m & H1 & H2)|(o & H1 & H2)].
      - assert (Es : ∀ g, until n' g f → srun g s [EvCrashIn e m] = Sys (FWorld w' n') (cfg s) [] false (runs s)).
        { intros g Hu. unfold sys_run. cbn [fold_left]. rewrite Hcut, (H1 g Hu). done. }
        assert (until n' f f) as Hff by done.
        apply (Hnext (Race w' [Proc (cfg s) [] false None] rs as_) f (EvCrashIn e m)) with (zs := zs); try done.
        + by rewrite (Es f Hff).
        + exact (f_equal (λ r, rrun r zs) H2).
        + rewrite (Es f Hff). exact Es.
      - assert (until n' f f) as Hff by done.
        set (s' := match o with
          | Done (c', ts', js, x) => Sys (FWorld w' n') c' ts' true (runs s ++ js)
          | _ => Sys (FWorld w' n') (cfg s) [] false (runs s) end).
        assert (Es : ∀ g, until n' g f → srun g s [e] = s').
        { intros g Hu. unfold sys_run. cbn [fold_left]. rewrite Hc. unfold commit. fold p. rewrite (H1 g Hu).
          subst s'. destruct o as [[[[c' ts'] js] y]| |]; done. }
        assert (ops (sw s') = n') as En by (subst s'; destruct o as [[[[c' ts'] js] y]| |]; done).
        assert (alike (rrun (Race (fw (sw s)) [Proc (cfg s) (tasks s) a (Some (e, p))] rs as_) ys) s') as Hal.
        { subst s'. destruct o as [[[[c' ts'] js] y]| |]; rewrite H2; try done. split; [done|]. split; [done|].
          cbn. rewrite map_app, map_map, Hr. cbn. by rewrite map_id. }
        eapply (Hnext _ f e) with (zs := zs); try done.
        + by rewrite (Es f Hff).
        + rewrite (Es f Hff), En. exact Es. }
    destruct x as [i e fuel|i f|i]; (destruct i as [|i]; [|by apply Hskip]); [|by apply Hskip|by apply Hdie].
    subst fuel. cbn [race_step r_procs lookup list_lookup] in *.
    unfold race_begin in *. cbn [p_now p_alive p_cfg p_tasks] in *.
    specialize (Hbusy e (alive s)). destruct (alive s) eqn:Eal; destruct e; try (by apply Hskip); try (by apply Hdie);
      (apply Hbusy; [reflexivity| |]; intros; unfold sys_step; rewrite Eal; done).
  Qed.

  Lemma race_only xs :
    Forall (λ x, match x with RBegin _ _ fuel => fuel = 0%nat | _ => True end) xs →
    idle (race_after prof sched name clock 1 xs) 0 →
    ∃ f es, alike (race_after prof sched name clock 1 xs) (fafter (prof 0%nat) (sched 0%nat) (name 0%nat) (clock 0%nat) f es).
  Proof. intros Hx Hi. apply (idle_back (length xs) xs (le_n _) (race_init world_empty 1)); done. Qed.
End back.
