(** Payloads and run counts, under races. *)
From Verif Require Import Spec SpecRace SpecCount JsonFacts BackendFacts WorldFacts MicroFacts PickFacts FaultFacts ValueFacts ValueProps RaceFacts RaceValue RaceProps.

Section count.
  Context {M : Type} `{SM : Serde M} {SO : SerdeOk M}.
  Context (prof : nat → profile).
  Context (sched : nat → string → option (time → option time)).
  Context (name : nat → string).
  Context (clock : nat → nat → time).
  Notation race_after := (race_after prof sched name clock).
  Notation ralong := (ralong prof sched name clock).
  Notation init n := (race_init world_empty n : race M world).
  Context (acts : job M → user_result M → Prop) (start : string → M → Prop).
  Notation agrees := (agrees acts start).
  Definition CG (k : nat) (j : job M) : Prop := agrees j.
  Definition CR (k : nat) (j : job M) : Prop := agrees j ∧ jstatus (ctx j) = Running.
  Definition CU (k : nat) (o j : job M) : Prop := j = counted o.
  Definition CV (k : nat) (o j : job M) : Prop := ∃ u, acts (counted o) u ∧ j = set_data (counted o) (ur_data u).
  (** The settled job, whatever its type and its retry state. *)
  Definition CW (k : nat) (b : bool) (j : job M) : Prop :=
    jstatus (ctx j) = Running ∧
    ∃ d0, start (jid j) d0 ∧ last_said acts (jid j) d0 (run_count (ctx j)) (data j) b.
  Lemma said_led id d0 n d b : last_said acts id d0 n d b → led acts id d0 n d.
  Proof. intros (j & u & H1 & H2 & -> & H3 & H4 & -> & _). by apply led_more. Qed.
  Lemma CW_said k b j : CW k b j →
    ∃ d0, start (jid j) d0 ∧ led acts (jid j) d0 (run_count (ctx j)) (data j) ∧
      last_said acts (jid j) d0 (run_count (ctx j)) (data j) b.
  Proof. intros [_ (d0 & H1 & H2)]. exists d0. split; [done|]. split; [by eapply said_led|done]. Qed.
  Lemma count_closed i : pclosed (prof i) (sched i) (clock i) CG CR CU CV CW.
  Proof using SO.
    split; try done.
    - by intros k j [H _].
    - intros k b j H. destruct (CW_said _ _ _ H) as (d0 & H1 & H2 & _). exists d0. split; [done|]. split; [done|].
      destruct H as [H _]. by rewrite H.
    - intros k j js j' H E1 E2. rewrite (dec_enc_job _ _ E1) in E2. by injection E2 as <-.
    - intros k j (d0 & H1 & H2 & _). by exists d0.
    - intros k k' j (d0 & H1 & H2 & _) _ _. split; [|done]. by exists d0.
    - intros k j H. destruct (CW_said _ _ _ H) as (d0 & H1 & H2 & H3). by exists d0.
    - intros k j H. destruct (CW_said _ _ _ H) as (d0 & H1 & H2 & H3). exists d0. split; [done|]. split; [done|]. split; [done|]. by left.
    - intros k o j [(d0 & H1 & H2 & _) H3] (u & Hu & _). exists d0. split; [done|]. split; [done|]. split; [done|].
      intros _. right. by exists o, u.
    - intros k j (d0 & H1 & H2 & H3) _. by exists d0.
    - intros k k' b j e slot n cc aft up n' H _ _ _ _ _ _ _. destruct (CW_said _ _ _ H) as (d0 & H1 & H2 & H3).
      exists d0. split; [done|]. split; [done|]. destruct H as [H _]. cbn. by rewrite H.
    - intros k b j r r' t H _ _ _. destruct (CW_said _ _ _ H) as (d0 & H1 & H2 & H3).
      exists d0. split; [done|]. split; [done|]. destruct H as [H _]. cbn. by rewrite H.
  Qed.
  Lemma CW_of k o u d : CR k o → acts (counted o) u → d = ur_data u → CW k (ur_failed u) (set_data (counted o) d).
  Proof.
    intros [(d0 & H1 & H2 & _) H3] Hu ->. split; [done|]. exists d0. split; [done|]. by exists o, u.
  Qed.
  (** What an event must satisfy, in terms of the job its task picked. *)
  Lemma count_general (Q : race M world → race_event M → Prop) n xs :
    (∀ r i j c m, Q r (RBegin i (EvEnqueue j c) m) → agrees j) →
    (∀ r i k u m t, Q r (RBegin i (EvTask k u) m) → has_task r i k t →
       (t_phase t = InUser → t_job t = counted (t_orig t) → acts (counted (t_orig t)) u) ∧
       (t_phase t = AfterHook → CV 0 (t_orig t) (t_job t) → acts (counted (t_orig t)) u ∧ ur_data u = data (t_job t))) →
    ralong Q (init n) xs →
    let r := race_after n xs in
    (∀ id (j : job M), stored (r_world r) id = Some j → jid j = id ∧ agrees j) ∧
    (∀ i j, (i, j) ∈ r_runs r → agrees_run acts start j) ∧
    (∀ i id j, (i, EvGet id, RJob (Some j)) ∈ r_answers r → jid j = id ∧ agrees j).
  Proof using SO.
    intros HQ1 HQ2 Ha.
    destruct (pinstance prof sched name clock CG (λ _, CR) (λ _, CU) (λ _, CV) (λ _, CW)) with
      (Q := Q) (n := n) (xs := xs) as (H1 & H2 & H3); [..|done|].
    - intros i. apply count_closed.
    - intros r x Hv Hx. destruct x as [i e m| |]; try done. intros p Hp.
      destruct e as [j c| | | | | |k u| | | |]; try done; [left; by eapply HQ1|].
      intros t Ht k' Hk'. assert (has_task r i k t) as Hh by by exists p.
      destruct (pinv_task _ _ _ _ _ _ _ _ _ Hv Hh) as [Ho Hj]. destruct (HQ2 r i k u m t Hx Hh) as [A1 A2]. split.
      + intros Hf. rewrite Hf in Hj. exists u. split; [by apply A1|]. by rewrite Hj.
      + intros Hf. rewrite Hf in Hj. destruct (A2 Hf Hj) as [B1 B2]. destruct Hj as (u' & _ & Ej).
        rewrite Ej in B2 |- *. cbn [data set_data] in B2.
        pose proof (CW_of k' (t_orig t) u _ Ho B1 (eq_sym B2)) as Hw. split; [by intros _|].
        intros r0 r' o _ _. assert (CW k' (ur_failed u) (retried (set_data (counted (t_orig t)) (ur_data u')) r')) as Hw' by exact Hw.
        split; [done|]. intros t' _. destruct (CW_said _ _ _ Hw') as (d0 & C1 & C2 & _).
        exists d0. split; [done|]. split; [done|]. destruct Hw' as [Hs _]. cbn in Hs |- *. by rewrite Hs.
    - split; [exact H1|]. split; [|exact H3].
      intros i j Hj. destruct (H2 i j Hj) as (o & [(d0 & B1 & B2 & _) _] & ->). by exists d0, (run_count (ctx o)).
  Qed.
  Lemma count_agrees n xs :
    ralong (acting acts start) (init n) xs →
    let r := race_after n xs in
    (∀ id (j : job M), stored (r_world r) id = Some j → jid j = id ∧ agrees j) ∧
    (∀ i j, (i, j) ∈ r_runs r → agrees_run acts start j) ∧
    (∀ i id j, (i, EvGet id, RJob (Some j)) ∈ r_answers r → jid j = id ∧ agrees j).
  Proof using SO.
    apply count_general; [done|]. intros r i k u m t Hx Ht. destruct (Hx t Ht) as [A1 A2]. split; [|auto].
    intros Hf E. rewrite <-E. by apply A1.
  Qed.
End count.

Section code.
  Context {M O : Type} `{SM : Serde M} {SO : SerdeOk M}.
  Context (prof : nat → profile).
  Context (sched : nat → string → option (time → option time)).
  Context (name : nat → string).
  Context (clock : nat → nat → time).
  Lemma code_does (c : code M O) j : does c j (code_result c j).
  Proof.
    unfold code_result, user_run. set (d1 := pre_execute c (ctx j) (data j)).
    destruct (execute c (ctx j) d1) as [d2 o2] eqn:E2. destruct (post_execute c (ctx j) d2 o2) as [d3 o3] eqn:E3.
    exists d3, o3. split; [by exists d1, d2, o2|]. split; [done|]. split; [done|]. cbn [ur_retry].
    destruct (retry_at c) as [f|]; [|done]. intros r ->. by destruct (f d3 r o3).
  Qed.
  Lemma comes_to_fun (c : code M O) j d o d' o' : comes_to c j d o → comes_to c j d' o' → d' = d ∧ o' = o.
  Proof. intros (a1 & a2 & p2 & A1 & A2 & A3) (b1 & b2 & q2 & B1 & B2 & B3). split; congruence. Qed.
  Lemma count_code (c : code M O) start n xs :
    ralong prof sched name clock (coded c start) (race_init world_empty n) xs →
    let r := race_after prof sched name clock n xs in
    (∀ id (j : job M), stored (r_world r) id = Some j → jid j = id ∧ agrees (does c) start j) ∧
    (∀ i j, (i, j) ∈ r_runs r → agrees_run (does c) start j) ∧
    (∀ i id j, (i, EvGet id, RJob (Some j)) ∈ r_answers r → jid j = id ∧ agrees (does c) start j).
  Proof using SO.
    apply count_general.
    - intros r i j ec m (H1 & H2 & H3). exists (data j). rewrite H2, H3. split; [done|]. split; [constructor|]. by split.
    - intros r i k u m t Hx Ht. rewrite (Hx t Ht). split; [intros; apply code_does|].
      intros _ (u' & Hu & ->). split; [apply code_does|]. cbn [data set_data].
      destruct (code_does c (counted (t_orig t))) as (d & o & A1 & A2 & _).
      destruct Hu as (d' & o' & B1 & B2 & _). destruct (comes_to_fun _ _ _ _ _ _ A1 B1) as [-> _]. congruence.
  Qed.
End code.
