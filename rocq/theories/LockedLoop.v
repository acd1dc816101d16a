(** When the picking loop ends, if ticks take turns. *)
From Verif Require Import Spec SpecRace SpecLocked BackendFacts WorldFacts RaceFacts RaceLoop.

Section races.
  Context {M : Type} `{SM : Serde M}.
  Context (prof : nat → profile).
  Context (sched : nat → string → option (time → option time)).
  Context (name : string).
  Context (clock : nat → nat → time).
  Notation mem := (λ i, mem_h (clock i)).
  Notation names := (λ _ : nat, name).
  Notation rstep := (race_step prof sched names mem).
  Notation len w := (length (ql (st w) (format_queue_name name Queued))).
  Local Notation TT := (λ _ _, True).
  Implicit Types r : race M world.

  Definition takes (e : event M) : Prop := match e with EvTick | EvStart | EvCancel _ => True | _ => False end.
  Definition begins (e : event M) : Prop := match e with EvTick | EvStart => True | _ => False end.
  (** What holds of a process. *)
  Definition lp (w : world) (k : nat) (p : proc M) : Prop :=
    Forall nwt (p_tasks p) ∧
    match p_now p with
    | Some (e, c) =>
        all_calls (λ _ _, True) True c nws ∧
        (takes e ∨ all_calls (keeps name) True c T) ∧
        (begins e ∧ nd name (clock k) w c TT ∨ ¬ begins e ∧ all_calls (λ _ _, True) False c T)
    | None => True
    end.
  Definition calm' r : Prop := ∀ k p, r_procs r !! k = Some p → lp (r_world r) k p.
  Lemma lp_gone w k p : lp w k (gone p).
  Proof. split; [constructor|done]. Qed.
  Lemma calm_put' r k p : calm' r → lp (r_world r) k p → calm' (put r k p).
  Proof. intros Hr Hp k' p' [(<- & <- & _)|[_ H]]%list_lookup_insert_Some; [done|by apply Hr]. Qed.
  Lemma total_step_of n k c ts (e : event M) :
    Forall nwt ts → ¬ begins e → all_calls (λ _ _, True) False (step_of prof sched names n k c ts e) T.
  Proof.
    intros Ht He.
    destruct e; try (by destruct He); try (eapply all_calls_mono; [| | |by apply ok_cancel]; done);
      (eapply all_calls_mono; [| | |by apply (ok_event name)]; done).
  Qed.
  Lemma calm_step' r x : calm' r → locked r → calm' (rstep r x).
  Proof.
    intros Hr Hlk.
    destruct x as [k e n|k f|k]; cbn [race_step]; destruct (r_procs r !! k) as [p|] eqn:Ep; try done;
      pose proof (Hr k p Ep) as [Ht Hn].
    - apply calm_put'; [done|].
      unfold race_begin. destruct (p_now p) as [[e' c]|] eqn:En; [split; [done|by rewrite En]|].
      assert (∀ a, lp (r_world r) k (Proc (p_cfg p) (p_tasks p) a (Some (e, step_of prof sched names n k (p_cfg p) (p_tasks p) e)))) as Hgo.
      { intros a. split; [done|]. cbn [p_now]. split; [by apply (any_step_of _ _ _ 0)|]. split.
        - assert (takes e ∨ match e with EvTick | EvStart | EvCancel _ => False | _ => True end) as [H|H] by (destruct e; cbn; auto).
          + by left.
          + right. apply (keep_step_of prof sched names clock k); auto.
        - assert (begins e ∨ ¬ begins e) as [H|H] by (destruct e; cbn; auto).
          + left. split; [done|]. by apply (nd_step_of prof sched names clock k).
          + right. split; [done|]. by apply total_step_of. }
      assert (lp (r_world r) k p) as Hp by (split; [done|by rewrite En]).
      destruct (p_alive p), e; first [apply Hgo|apply lp_gone|exact Hp].
    - unfold race_call. destruct (p_now p) as [[e c]|] eqn:En; [|done]. destruct Hn as (Hany & Hk & Hn).
      destruct c as [[[[c ts] js] a]| | |X e' g].
      + intros k' p' [(<- & <- & _)|[_ H]]%list_lookup_insert_Some; [by split|by apply Hr].
      + apply calm_put'; [done|apply lp_gone].
      + apply calm_put'; [done|apply lp_gone].
      + destruct Hany as [_ Hany].
        assert (∀ w x, ((begins e ∧ nd name (clock k) w (g x) TT) ∨ ¬ begins e) →
          (takes e ∨ (len (r_world r) <= len w)%nat) →
          calm' (Race w (<[k:=Proc (p_cfg p) (p_tasks p) (p_alive p) (Some (e, g x))]> (r_procs r)) (r_runs r) (r_answers r))) as Hgo.
        { intros w x Hnd Hl k' p' [(<- & <- & _)|[Hne H]]%list_lookup_insert_Some.
          - split; [done|]. cbn [p_now]. split; [apply Hany|]. split.
            + destruct Hk as [Hk|[_ Hk]]; [by left|right; apply Hk].
            + destruct Hnd as [Hnd|Hnb]; [by left|]. right. split; [done|]. destruct Hn as [[? _]|[_ [_ Hn]]]; [done|apply Hn].
          - destruct (Hr k' p' H) as [A1 A2]. split; [done|]. destruct (p_now p') as [[e0 c0]|] eqn:En'; [|done].
            destruct A2 as (A2 & A3 & A4). split; [done|]. split; [done|]. destruct A4 as [[B1 B2]|A4]; [|by right].
            left. split; [done|]. assert (picks p') as Hpk by (unfold picks; rewrite En'; by destruct e0).
            destruct Hl as [Htk|Hl]; [|by eapply nd_len]. exfalso. apply Hne. symmetry.
            apply (Hlk k' k p' p); [done|done|done|].
            unfold picks, cancelling. rewrite En. destruct e; try done; auto. }
        unfold call_h. destruct Hn as [[Hb Hn]|[Hb _]].
        * pose proof (Hn (r_world r) (le_n _)) as [N1 N2]. assert (takes e) by by destruct e.
          destruct (fail_ans e') as [bad|]; [destruct N2 as [N2 N3]; destruct f|];
            try (destruct (mem_h (clock k) X e' (r_world r)) as [w' x]); apply Hgo; auto.
        * assert (takes e ∨ (len (r_world r) <= len (mem_h (clock k) X e' (r_world r)).1)%nat) as Hl.
          { destruct Hk as [|[He _]]; [by left|]. right. by apply keeps_len. }
          destruct (fail_ans e') as [bad|]; [destruct f|];
            try (destruct (mem_h (clock k) X e' (r_world r)) as [w' x]); apply Hgo; auto.
    - apply calm_put'; [done|apply lp_gone].
  Qed.
  Lemma calm_after n xs : always_locked prof sched name clock n xs → calm' (race_after prof sched names clock n xs).
  Proof.
    intros Hl. induction xs as [|x xs IH] using rev_ind.
    - intros k p Hp. apply init_idle in Hp as ->. split; [constructor|done].
    - unfold race_after, race_run. rewrite fold_left_app. cbn [fold_left]. apply calm_step'.
      + apply IH. intros ys zs ->. apply (Hl ys (zs ++ [x])). by rewrite app_assoc.
      + by apply (Hl xs [x]).
  Qed.
  Lemma locked_never_exhausted n xs i :
    always_locked prof sched name clock n xs → ¬ exhausted (race_after prof sched names clock n xs) i.
  Proof.
    intros Hl (p & e & Hp & Hn). destruct (calm_after n xs Hl i p Hp) as [_ H]. rewrite Hn in H.
    by destruct H as (_ & _ & [[_ []]|[_ []]]).
  Qed.
  Lemma locked_steps_end n (s : nat → race_event M) i :
    (i < n)%nat → (∀ a, ∃ b, (a <= b)%nat ∧ ∃ f, s b = RCall i f) →
    (∀ a, locked (race_after prof sched names clock n (up_to s a))) →
    (∀ a, ∃ b, (a <= b)%nat ∧ idle (race_after prof sched names clock n (up_to s b)) i) ∧
    (∀ a, ¬ exhausted (race_after prof sched names clock n (up_to s a)) i).
  Proof.
    intros Hi Hs Hq. split; [by apply race_steps_end|]. intros a. apply locked_never_exhausted.
    intros ys zs E. replace ys with (up_to s (length ys)); [apply Hq|].
    unfold up_to in *. assert (length ys + length zs = a)%nat as Hle by (rewrite <-app_length, <-E, map_length, seq_length; done).
    rewrite <-Hle, seq_app, map_app in E. apply app_inj_1 in E as [E _]; [done|]. by rewrite map_length, seq_length.
  Qed.
End races.
