(** Waiting lists of any length, 2^31 ids and more included. *)
From Verif Require Import Spec JsonFacts BackendFacts WorldFacts MicroFacts SubmitFacts HistFacts CronFacts PickFacts RaceLoop.
From stdpp Require Import pretty.
Open Scope Z_scope.

Section long.
  Context {M : Type} `{SM : Serde M} {SO : SerdeOk M}.
  Context (prof : profile).
  Context (name : string).
  Context (clock : nat → time).
  Notation h := (mem_h clock).
  Notation qlist := (qlist name).

  Lemma scan_loop_long fuel total (ready : list (job M)) cursor w pend seen :
    rev (qlist w Queued) = pend ++ seen → cursor = wrap32 (Z.of_nat (length pend)) → (length pend < fuel)%nat →
    let o := (scan_loop prof name clock fuel total ready cursor w).2 in
    o = Done tt ∨ o = Panicked ∧ prof = Debug ∧ i32_max < Z.of_nat (length pend).
  Proof.
    revert ready cursor w pend seen. induction fuel as [|fuel IH]; intros ready cursor w pend seen; [lia|].
    intros Hq -> Hfuel. cbn [scan_loop]. rewrite Hq. set (ids := take BATCH (pend ++ seen)).
    assert (length ids = Nat.min 20 (length pend + length seen)) as Hids.
    { unfold ids. by rewrite take_length, app_length. }
    destruct (i32_norm prof _) as [cursor'|] eqn:Ec.
    2:{ right. split; [done|]. unfold i32_norm, in_i32 in Ec. destruct (_ && _) eqn:Eb; [done|].
        split; [by destruct prof|]. destruct (Z.lt_ge_cases i32_max (Z.of_nat (length pend))) as [|Hle]; [done|].
        exfalso. rewrite wrap32_small in Eb by (unfold i32_min in *; lia).
        rewrite (proj2 (Z.leb_le _ _)), (proj2 (Z.leb_le _ _)) in Eb; [done|unfold i32_min, i32_max in *; lia..]. }
    apply i32_norm_wrap in Ec. rewrite wrap32_sub in Ec.
    destruct (scan_batch_any name clock total ids (drop BATCH (pend ++ seen)) ready w) as [kept Hkept].
    { rewrite Hq. unfold ids. by rewrite take_drop. }
    destruct (scan_batch name clock total ids ready w) as [w' ready']. cbn [fst] in Hkept.
    destruct (total <=? length ready')%nat; [by left|].
    destruct (Z.leb_spec cursor' 0) as [|Hpos]; [by left|].
    assert (20 < length pend)%nat as Hlong.
    { destruct (Nat.lt_ge_cases 20 (length pend)) as [|Hle]; [done|].
      rewrite wrap32_small in Ec; [lia|]. unfold i32_min, i32_max. lia. }
    destruct (IH ready' cursor' w' (drop BATCH pend) (seen ++ kept)) as [Hd|(H1 & H2 & H3)].
    - rewrite Hkept, drop_app_le by (unfold BATCH; lia). by rewrite app_assoc.
    - rewrite Ec, drop_length. f_equal. unfold BATCH. lia.
    - rewrite drop_length. unfold BATCH. lia.
    - by left.
    - right. split; [done|]. split; [done|]. rewrite drop_length in H3. lia.
  Qed.

  Lemma pick_long max w :
    let o := (run h (pick_jobs_to_process (M := M) prof name max) w).2 in
    (∃ js, o = Done (Ok js)) ∨
    o = Panicked ∧ prof = Debug ∧ i32_max < Z.of_nat (length (qlist w Queued)).
  Proof.
    cbv zeta. rewrite run_pick. unfold with_ready, do_pick. cbn [snd].
    destruct (max <=? _)%nat; [left; by eexists|].
    destruct (scan_loop_long (S (length (qlist w Queued))) (max - length (qlist w Running)) []
      (wrap32 (Z.of_nat (length (qlist w Queued)))) w (rev (qlist w Queued)) []) as [Hd|(H1 & H2 & H3)].
    - by rewrite app_nil_r.
    - by rewrite rev_length.
    - rewrite rev_length. lia.
    - rewrite Hd. left. by eexists.
    - rewrite H1. right. by rewrite rev_length in H3.
  Qed.

  (** The panic does happen. *)
  Lemma pick_panics max w :
    prof = Debug → i32_max < Z.of_nat (length (qlist w Queued)) <= i32_max + 20 →
    (length (qlist w Running) < max)%nat →
    (run h (pick_jobs_to_process (M := M) prof name max) w).2 = Panicked.
  Proof.
    intros Hp Hl Hf. rewrite run_pick. unfold with_ready, do_pick. cbn [snd].
    destruct (Nat.leb_spec max (length (qlist w Running))) as [|_]; [lia|]. cbn [scan_loop].
    assert (length (take BATCH (rev (qlist w Queued))) = 20%nat) as ->.
    { rewrite take_length, rev_length. unfold BATCH, i32_max in *. lia. }
    assert (wrap32 (Z.of_nat (length (qlist w Queued))) = Z.of_nat (length (qlist w Queued)) - 4294967296) as ->.
    { unfold wrap32, i32_max in *. rewrite <-(Z.mod_unique (Z.of_nat (length (qlist w Queued)) + 2147483648) 4294967296
        1 (Z.of_nat (length (qlist w Queued)) - 2147483648)); lia. }
    unfold i32_norm, in_i32. rewrite (proj2 (Z.leb_gt _ _)) by (unfold i32_min, i32_max in *; lia). by rewrite Hp.
  Qed.
  (** In the release build the loop stops after one batch. *)
  Lemma scan_batch_count total ids (ready : list (job M)) w :
    (length (scan_batch name clock total ids ready w).2 <= length ready + length ids)%nat.
  Proof.
    revert ready w. induction ids as [|id ids IH]; intros ready w; cbn [scan_batch length snd]; [lia|].
    destruct (stored w id) as [j|]; [|etransitivity; [apply IH|lia]].
    destruct (_ && _ && _); (etransitivity; [apply IH|]); rewrite ?app_length; cbn [length]; lia.
  Qed.
  Lemma pick_one_batch max w js w' :
    2147483668 <= Z.of_nat (length (qlist w Queued)) <= 4294967296 →
    run h (pick_jobs_to_process (M := M) prof name max) w = (w', Done (Ok js)) → (length js <= 20)%nat.
  Proof.
    intros Hl. rewrite run_pick. unfold with_ready, do_pick. destruct (max <=? _)%nat; [intros [= <- <-]; cbn; lia|].
    cbn [scan_loop]. set (ids := take BATCH (rev (qlist w Queued))).
    assert (length ids = 20%nat) as Hids.
    { unfold ids. rewrite take_length, rev_length. unfold BATCH in *. lia. }
    assert (wrap32 (Z.of_nat (length (qlist w Queued))) = Z.of_nat (length (qlist w Queued)) - 4294967296) as ->.
    { unfold wrap32 in *. rewrite <-(Z.mod_unique (Z.of_nat (length (qlist w Queued)) + 2147483648) 4294967296
        1 (Z.of_nat (length (qlist w Queued)) - 2147483648)); lia. }
    unfold i32_norm, in_i32. rewrite Hids, (proj2 (Z.leb_le _ _)), (proj2 (Z.leb_le _ _)) by (unfold i32_min, i32_max; lia).
    cbn [andb]. pose proof (scan_batch_count (max - length (qlist w Running)) ids [] w) as Hc.
    destruct (scan_batch _ _ _ ids [] w) as [w1 ready]. cbn [snd length] in Hc.
    destruct (_ <=? _)%nat; [intros [= <- <-]; cbn [fst snd]; lia|].
    rewrite (proj2 (Z.leb_le _ _)) by lia. intros [= <- <-]. cbn [fst snd]. lia.
  Qed.
End long.

(** *** Such lists can be reached: [n] jobs are submitted, one after the other *)
Section bulk.
  Context {M : Type} `{SM : Serde M} {SO : SerdeOk M}.
  Context (prof : profile).
  Context (sched : string → option (time → option time)).
  Context (name : string).
  Context (clock : nat → time).
  Notation h := (mem_h clock).
  Notation qlist := (qlist name).
  Notation after := (after prof sched name clock).
  Notation step := (sys_step prof sched name h).
  Notation stored := (@stored M SM).
  Context (d : M).

  Definition bulk_job (i : nat) : job M := job_new (pretty (N.of_nat i)) 0 d.
  Definition bulk (slots n : nat) : list (event M) :=
    [EvStart; EvConfig (WqConfig 1 slots)] ++ map (λ i, EvEnqueue (bulk_job i) new_re_run) (seq 0 n).

  Lemma bulk_ok slots n : ok_hist prof sched name clock initial (bulk slots n).
  Proof.
    apply plain_ok. unfold bulk. apply Forall_app. split; [by repeat constructor|].
    apply Forall_forall. intros e (i & <- & _)%elem_of_list_In%in_map_iff. done.
  Qed.
  Lemma bulk_id_inj i k : jid (bulk_job i) = jid (bulk_job k) → i = k.
  Proof. cbn. intros H%(inj pretty). lia. Qed.

  Lemma bulk_spec slots n :
    let s := after (bulk slots n) in
    alive s = true ∧ cfg s = WqConfig 1 slots ∧ tasks s = [] ∧ qlist (sw s) Running = [] ∧
    length (qlist (sw s) Queued) = n ∧
    (∀ i, (n <= i)%nat → stored (sw s) (jid (bulk_job i)) = None) ∧
    (∀ id, id ∈ qlist (sw s) Queued → ∃ j, stored (sw s) id = Some j ∧ jtype (ctx j) = Normal).
  Proof.
    cbv zeta. induction n as [|n (Ha & Hc & Ht & Hr & Hq & Hn & Hj)].
    { assert (after (bulk slots 0) = Sys world_empty (WqConfig 1 slots) [] true []) as -> by reflexivity.
      repeat (split; [done|]). by intros id ?%not_elem_of_nil. }
    unfold bulk in *. rewrite seq_S, map_app, app_assoc. cbn [map Nat.add]. rewrite after_snoc.
    set (s := after _) in *.
    destruct (submit_new prof sched name clock s (bulk_job n) new_re_run Ha (Hn n ltac:(lia)))
      as (_ & (j' & t & Hs & Hb & _) & Hl & Ho & _ & Ht' & _ & Hc' & Ha').
    rewrite Ha', Hc', Ht', !Hl. destruct (decide (Running = Queued)) as [|_]; [done|].
    destruct (decide (Queued = Queued)) as [_|]; [|done]. do 4 (split; [done|]).
    split; [cbn [length]; by rewrite Hq|]. split.
    - intros i Hi. rewrite Ho; [apply Hn; lia|]. intros E%bulk_id_inj. lia.
    - intros id [->|Hid]%elem_of_cons.
      + exists j'. split; [done|]. destruct Hb as (_ & _ & Hty & _). cbn in Hty. by inversion Hty.
      + destruct (decide (id = jid (bulk_job n))) as [->|Hne].
        * exfalso. destruct (Hj _ Hid) as (j & Hs' & _). rewrite Hn in Hs' by lia. done.
        * destruct (Hj _ Hid) as (j & Hs' & Hty'). exists j. by rewrite Ho.
  Qed.

  (** A tick that panics takes the actor down. *)
  Lemma tick_panics s :
    prof = Debug → alive s = true → i32_max < Z.of_nat (length (qlist (sw s) Queued)) <= i32_max + 20 →
    (length (qlist (sw s) Running) < max_processing_jobs (cfg s))%nat → alive (step s EvTick).1 = false.
  Proof.
    intros Hp Ha Hl Hf. unfold sys_step. rewrite Ha. unfold commit. cbn [ev_prog]. unfold process_jobs.
    rewrite !run_bind. pose proof (pick_panics (M := M) prof name clock (max_processing_jobs (cfg s)) (sw s) Hp Hl Hf) as H.
    destruct (run _ _ (sw s)) as [w o]. cbn [snd] in H. by rewrite H.
  Qed.
  Lemma tick_one_batch s :
    2147483668 <= Z.of_nat (length (qlist (sw s) Queued)) <= 4294967296 →
    (length (tasks (step s EvTick).1) <= length (tasks s) + 20)%nat.
  Proof.
    intros Hl. unfold sys_step. destruct (alive s) eqn:Ha; [|cbn [fst]; lia]. unfold commit. cbn [ev_prog]. unfold process_jobs.
    rewrite !run_bind. pose proof (pick_one_batch (M := M) prof name clock (max_processing_jobs (cfg s)) (sw s)) as H.
    destruct (run _ _ (sw s)) as [w [[js|e]| |]]; cbn; rewrite ?app_length, ?map_length; try lia.
    specialize (H js w Hl eq_refl). lia.
  Qed.
End bulk.

Lemma of_to z : 0 <= z → Z.of_nat (Z.to_nat z) = z.
Proof. apply Z2Nat.id. Qed.
Lemma panic_reached {M} `{SM : Serde M} {SO : SerdeOk M} sched name clock (d : M) :
  ∃ es : list (event M), let s := after Debug sched name clock es in
    ok_hist Debug sched name clock initial es ∧ alive s = true ∧ free_slots name s = 100%nat ∧
    alive (sys_step Debug sched name (mem_h clock) s EvTick).1 = false.
Proof.
  exists (bulk d 100 (Z.to_nat 2147483648)). cbv zeta.
  destruct (bulk_spec Debug sched name clock d 100 (Z.to_nat 2147483648)) as (Ha & Hc & _ & Hr & Hq & _).
  split; [apply bulk_ok|]. split; [exact Ha|]. split; [unfold free_slots; by rewrite Ha, Hc, Hr|].
  apply tick_panics; [done|exact Ha|rewrite Hq, of_to; unfold i32_max; lia|rewrite Hc, Hr; cbn; lia].
Qed.
Lemma one_batch_reached {M} `{SM : Serde M} {SO : SerdeOk M} prof sched name clock (d : M) :
  ∃ es : list (event M), let s := after prof sched name clock es in
    ok_hist prof sched name clock initial es ∧ alive s = true ∧ free_slots name s = 100%nat ∧ tasks s = [] ∧
    (2 ^ 31 < Z.of_nat (length (qlist name (sw s) Queued))) ∧
    (∀ id, id ∈ qlist name (sw s) Queued → ∃ j : job M, stored (sw s) id = Some j ∧ ∀ t, due j t) ∧
    (length (tasks (sys_step prof sched name (mem_h clock) s EvTick).1) <= 20)%nat.
Proof.
  exists (bulk d 100 (Z.to_nat 2147483668)). cbv zeta.
  destruct (bulk_spec prof sched name clock d 100 (Z.to_nat 2147483668)) as (Ha & Hc & Ht & Hr & Hq & _ & Hj).
  split; [apply bulk_ok|]. split; [exact Ha|]. split; [unfold free_slots; by rewrite Ha, Hc, Hr|]. split; [exact Ht|].
  split; [rewrite Hq, of_to; lia|]. split.
  - intros id Hid. destruct (Hj id Hid) as (j & Hs & Hty). exists j. split; [exact Hs|]. intros t. unfold due. by rewrite Hty.
  - etransitivity; [apply tick_one_batch; rewrite Hq, of_to; lia|]. rewrite Ht. cbn. lia.
Qed.
