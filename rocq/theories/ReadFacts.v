(** Proofs about how stored jobs are read. *)
From Verif Require Import Json JsonFacts SpecRead.

(** Every name of [ks] occurs at most once in [l]. *)
Definition once (ks : list string) (l : list (string * json)) : Prop :=
  ∀ k, k ∈ ks → ∀ i i' x x', l !! i = Some (k, x) → l !! i' = Some (k, x') → i = i'.

Lemma count_zero k (l : list (string * json)) :
  length (List.filter (λ p, String.eqb k p.1) l) = 0%nat ↔ ∀ x, (k, x) ∉ l.
Proof.
  induction l as [|[k' v] l IH]; cbn.
  - split; [|done]. intros _ x H. by apply elem_of_nil in H.
  - destruct (String.eqb_spec k k') as [->|Hk]; cbn.
    + split; [done|]. intros H. exfalso. apply (H v). by left.
    + rewrite IH. split; intros H x Hx.
      * apply elem_of_cons in Hx as [[= -> _]|Hx]; [done|]. by apply (H x).
      * apply (H x). by right.
Qed.
Lemma count_once k (l : list (string * json)) :
  (length (List.filter (λ p, String.eqb k p.1) l) <= 1)%nat ↔
  ∀ i i' x x', l !! i = Some (k, x) → l !! i' = Some (k, x') → i = i'.
Proof.
  induction l as [|[k' v] l IH]; cbn.
  - split; [|intros; lia]. intros _ [] ? ?; done.
  - destruct (String.eqb_spec k k') as [->|Hk]; cbn.
    + assert (Hz := count_zero k' l). split.
      * intros H. assert (∀ x, (k', x) ∉ l) as Hn by (apply Hz; lia).
        intros [|i] [|i'] x x' H1 H2; cbn in H1, H2; try done.
        -- exfalso. apply (Hn x'). by eapply elem_of_list_lookup_2.
        -- exfalso. apply (Hn x). by eapply elem_of_list_lookup_2.
        -- exfalso. apply (Hn x). by eapply elem_of_list_lookup_2.
      * intros H. apply le_n_S. apply Nat.le_0_r, Hz. intros x Hx. apply elem_of_list_lookup_1 in Hx as [i Hi].
        specialize (H O (S i) v x eq_refl Hi). done.
    + rewrite IH. split.
      * intros H [|i] [|i'] x x' H1 H2; cbn in H1, H2; try done; try congruence. f_equal. by eapply H.
      * intros H i i' x x' H1 H2. specialize (H (S i) (S i') x x' H1 H2). congruence.
Qed.

Lemma as_struct_spec ks v l : NoDup ks → as_struct ks v = Some l ↔ struct ks v l.
Proof.
  intros Hnd. split.
  - intros H. destruct v as [| | | |vs|l']; try done; cbn in H.
    + destruct (Nat.eqb_spec (length vs) (length ks)) as [E|]; [|done]. injection H as <-.
      right. exists vs. split; [done|]. split; [done|]. intros i k x. rewrite lookup_zip_with_Some. naive_solver.
    + destruct (forallb _ ks) eqn:E; [|done]. injection H as <-. left. split; [done|].
      intros k Hk. apply count_once. rewrite forallb_forall in E. apply Nat.leb_le, E. by apply elem_of_list_In.
  - intros [[-> H]|(vs & -> & E & H)]; cbn.
    + assert (forallb (λ k, (length (List.filter (λ p : string * json, String.eqb k p.1) l) <=? 1)%nat) ks = true) as ->; [|done].
      apply forallb_forall. intros k Hk. apply Nat.leb_le, count_once, H. by apply elem_of_list_In.
    + rewrite E, Nat.eqb_refl. f_equal. apply list_eq. intros i. apply option_eq. intros [k x]. rewrite H, lookup_zip_with_Some. naive_solver.
Qed.
Lemma struct_once ks v l : NoDup ks → struct ks v l → once ks l.
Proof.
  intros Hnd [[_ H]|(vs & _ & _ & H)]; [exact H|].
  intros k _ i i' x x' H1 H2. apply H in H1 as [H1 _], H2 as [H2 _]. by eapply NoDup_lookup.
Qed.

Lemma field_in ks l k : once ks l → k ∈ ks → ∀ x, field k l = Some x ↔ (k, x) ∈ l.
Proof.
  intros Ho Hk. specialize (Ho k Hk). clear ks Hk. induction l as [|[k' v] l IH]; intros x; cbn.
  - split; [done|]. by intros ?%elem_of_nil.
  - assert (∀ i i' x x', l !! i = Some (k, x) → l !! i' = Some (k, x') → i = i') as Ho'.
    { intros i i' y y' H1 H2. specialize (Ho (S i) (S i') y y' H1 H2). congruence. }
    destruct (String.eqb_spec k k') as [->|Hn].
    + split; [intros [= ->]; by left|]. intros [[= ->]|Hx]%elem_of_cons; [done|].
      apply elem_of_list_lookup_1 in Hx as [i Hi]. specialize (Ho O (S i) v x eq_refl Hi). done.
    + rewrite (IH Ho'). split; [by right|]. intros [[= -> _]|Hx]%elem_of_cons; done.
Qed.
Lemma field_none l k : field k l = None ↔ lacks l k.
Proof.
  induction l as [|[k' v] l IH]; cbn.
  - split; [|done]. intros _ x ?%elem_of_nil. done.
  - destruct (String.eqb_spec k k') as [->|Hn].
    + split; [done|]. intros H. exfalso. apply (H v). by left.
    + rewrite IH. unfold lacks. split; intros H x Hx.
      * apply elem_of_cons in Hx as [[= -> _]|Hx]; [done|]. by apply (H x).
      * apply (H x). by right.
Qed.

Lemma bind_Some {A B} (o : option A) (f : A → option B) b :
  (o ≫= f) = Some b ↔ ∃ a, o = Some a ∧ f a = Some b.
Proof. destruct o as [a|]; cbn; [|naive_solver]. split; [eauto|]. by intros (? & [= <-] & ?). Qed.

Section field.
  Context (ks : list string) (l : list (string * json)).
  Context (Ho : once ks l).
  Lemma field_num k z : k ∈ ks → (field k l ≫= dec_num) = Some z ↔ (k, JNum z) ∈ l.
  Proof using Ho.
    intros Hk. rewrite bind_Some. split.
    - intros (x & Hx & Hd). destruct x; try done. injection Hd as ->. by eapply field_in.
    - intros H. exists (JNum z). split; [|done]. by eapply field_in.
  Qed.
  Lemma field_of {A} (f : json → option A) (R : json → A → Prop) k a : k ∈ ks →
    (∀ x, f x = Some a ↔ R x a) → (field k l ≫= f) = Some a ↔ ∃ x, (k, x) ∈ l ∧ R x a.
  Proof using Ho.
    intros Hk Hf. rewrite bind_Some. split.
    - intros (x & Hx & Hd). exists x. split; [by eapply field_in|]. by apply Hf.
    - intros (x & Hx & Hr). exists x. split; [by eapply field_in|]. by apply Hf.
  Qed.
  Lemma field_opt {A} (f : json → option A) (R : json → A → Prop) k o : k ∈ ks →
    (∀ x a, x ≠ JNull → f x = Some a ↔ R x a) →
    dec_opt f (field k l) = Some o ↔ optional R l k o.
  Proof using Ho.
    intros Hk Hf. destruct (field k l) as [x|] eqn:E.
    - assert (Hx : (k, x) ∈ l) by (by eapply field_in).
      assert (Hu : ∀ y, (k, y) ∈ l → y = x).
      { intros y Hy. apply (field_in ks l k Ho Hk) in Hy. congruence. }
      assert (Hl : ¬ lacks l k) by (intros H; by apply (H x)).
      assert (∀ v, v ≠ JNull → dec_opt f (Some v) = match f v with Some a => Some (Some a) | None => None end) as Hdo
        by (intros []; done).
      assert (x = JNull ∨ x ≠ JNull) as [->|Hn] by (destruct x; auto).
      + cbn. destruct o as [a|]; cbn.
        * split; [done|]. intros (y & Hy & Hn & _). by rewrite (Hu y Hy) in Hn.
        * split; auto.
      + rewrite Hdo by done. destruct o as [a|]; cbn.
        * specialize (Hf x a Hn). destruct (f x) as [a'|].
          -- split.
             ++ intros [= ->]. exists x. split; [done|]. split; [done|]. by apply Hf.
             ++ intros (y & Hy & _ & Hr). rewrite (Hu y Hy) in Hr. by apply Hf in Hr as [= ->].
          -- split; [done|]. intros (y & Hy & _ & Hr). rewrite (Hu y Hy) in Hr. by apply Hf in Hr.
        * split; [by destruct (f x)|]. intros [?|Hy]; [done|]. by rewrite <-(Hu _ Hy) in Hn.
    - assert (Hl : lacks l k) by (by apply field_none). cbn. destruct o as [a|]; cbn.
      + split; [done|]. intros (y & Hy & _). by apply Hl in Hy.
      + split; auto.
  Qed.
End field.

Lemma is_num_spec x z : dec_num x = Some z ↔ is_num x z.
Proof. unfold is_num. destruct x; cbn; naive_solver. Qed.
Lemma is_us_spec x t : (of_us <$> dec_num x) = Some t ↔ is_us x t.
Proof.
  unfold is_us, of_us. destruct x as [| |u| | |]; cbn; try naive_solver. split.
  - intros [= <-]. exists u. split; [done|]. unfold time. lia.
  - intros (u' & [= ->] & ->). f_equal. unfold time. lia.
Qed.
Lemma is_us_num u : is_us (JNum u) (of_us u).
Proof. exists u. split; [done|]. unfold of_us, time. lia. Qed.

Lemma dec_status_spec v s : dec_status v = Some s ↔ reads_status v s.
Proof.
  unfold dec_status, reads_status. split.
  - destruct (unit_variant v) as [n|] eqn:E; [|done]. intros H. exists n. split.
    { destruct v as [| | |x| |[|[k []] []]]; try done; injection E as ->; auto. }
    destruct (String.eqb_spec n "Queued") as [->|]; [injection H as <-; set_solver|].
    destruct (String.eqb_spec n "Running") as [->|]; [injection H as <-; set_solver|].
    destruct (String.eqb_spec n "Finished") as [->|]; [injection H as <-; set_solver|].
    destruct (String.eqb_spec n "Failed") as [->|]; [injection H as <-; set_solver|].
    destruct (String.eqb_spec n "Canceled") as [->|]; [injection H as <-; set_solver|done].
  - intros (n & Hv & Hn). assert (unit_variant v = Some n) as -> by (by destruct Hv as [->| ->]).
    rewrite !elem_of_cons in Hn. destruct Hn as [[= -> ->]|[[= -> ->]|[[= -> ->]|[[= -> ->]|[[= -> ->]|H%elem_of_nil]]]]]; done.
Qed.

Local Ltac mem := repeat first [apply elem_of_list_here|apply elem_of_list_further].

Lemma dec_cc_spec v c : dec_cc v = Some c ↔ reads_cc v c.
Proof.
  unfold dec_cc, reads_cc. set (ks := ["tick_number"; "max_repeat"; "end_at"]).
  assert (NoDup ks) as Hnd by (by apply (bool_decide_eq_true_1 (NoDup _)); vm_compute).
  split.
  - destruct (as_struct ks v) as [l|] eqn:E; [|done]. apply as_struct_spec in E; [|done].
    pose proof (struct_once _ _ _ Hnd E) as Ho.
    intros H. apply bind_Some in H as (t & Ht & H). apply bind_Some in H as (m & Hm & H).
    apply bind_Some in H as (ej & Hej & H). apply bind_Some in H as (e & He & [= <-]).
    exists l. split; [done|]. cbn [tick_number max_repeat end_at]. split; [eapply (field_num ks); [done|mem|done]|].
    split; [eapply (field_opt ks l Ho dec_num is_num); [mem|intros; apply is_num_spec|done]|].
    rewrite <-Hej in He. split; [eapply (field_opt ks l Ho (λ j, of_us <$> dec_num j) is_us); [mem|intros; apply is_us_spec|done]|].
    rewrite <-field_none. congruence.
  - intros (l & Hs & Ht & Hm & He & Hl). pose proof (struct_once _ _ _ Hnd Hs) as Ho.
    apply as_struct_spec in Hs as ->; [|done].
    apply (field_num ks l Ho) in Ht; [|mem]. rewrite Ht. cbn [mbind option_bind].
    apply (field_opt ks l Ho dec_num) in Hm; [|mem|intros; apply is_num_spec]. rewrite Hm. cbn [mbind option_bind].
    apply (field_opt ks l Ho (λ j, of_us <$> dec_num j)) in He; [|mem|intros; apply is_us_spec].
    rewrite <-field_none in Hl. destruct (field "end_at" l) as [ej|]; [|done]. cbn [mbind option_bind]. rewrite He.
    cbn. by destruct c.
Qed.

Lemma dec_type_spec v t : dec_type v = Some t ↔ reads_type v t.
Proof.
  split.
  - destruct v as [| | |s| |[|[k v] []]]; try done; cbn [dec_type].
    + destruct (String.eqb_spec s "Normal") as [->|]; [|done]. intros [= <-]. constructor.
    + destruct (String.eqb_spec k "Normal") as [->|]; [destruct v; try done; intros [= <-]; constructor|].
      destruct (String.eqb_spec k "ScheduledAt") as [->|].
      { destruct v; try done. intros [= <-]. constructor. apply is_us_num. }
      destruct (String.eqb_spec k "Cron") as [->|]; [|done].
      destruct v as [| | | |[|[] [|[] [|[] [|c []]]]]|]; try done.
      * intros [= <-]. constructor. apply is_us_num.
      * intros [= <-]. constructor. apply is_us_num.
      * destruct (dec_cc c) as [cc|] eqn:E; [|done]. intros [= <-]. constructor; [apply is_us_num|by apply dec_cc_spec].
  - assert (∀ v t, is_us v t → ∃ u, v = JNum u ∧ t = of_us u) as Hu.
    { intros ?? (u & -> & ->). exists u. split; [done|]. unfold of_us, time. lia. }
    destruct 1 as [| |? ? H|????? ? H Hc|???? H|??? H]; [done|done|..]; destruct (Hu _ _ H) as (u & -> & ->); [done| |done|done].
    cbn. apply dec_cc_spec in Hc. by rewrite Hc.
Qed.
Lemma dec_strat_spec v s : dec_strat v = Some s ↔ reads_strat v s.
Proof.
  split.
  - destruct v as [| | | | |[|[k []] []]]; try done; cbn [dec_strat].
    destruct (String.eqb_spec k "Interval") as [->|]; [intros [= <-]; constructor; apply is_us_num|].
    destruct (String.eqb_spec k "ExponentialBackoff") as [->|]; [|done]. intros [= <-]; constructor; apply is_us_num.
  - destruct 1 as [?? (u & -> & ->)|?? (u & -> & ->)]; cbn; unfold of_us; do 2 f_equal; unfold duration; lia.
Qed.
Lemma dec_retry_spec v r : dec_retry v = Some r ↔ reads_retry v r.
Proof.
  unfold dec_retry, reads_retry. set (ks := ["retried_times"; "max_retries"; "strategy"]).
  assert (NoDup ks) as Hnd by (by apply (bool_decide_eq_true_1 (NoDup _)); vm_compute).
  split.
  - destruct (as_struct ks v) as [l|] eqn:E; [|done]. apply as_struct_spec in E; [|done].
    pose proof (struct_once _ _ _ Hnd E) as Ho.
    intros H. apply bind_Some in H as (t & Ht & H). apply bind_Some in H as (m & Hm & H).
    apply bind_Some in H as (s & Hs & [= <-]).
    apply (field_of ks l Ho dec_strat reads_strat) in Hs as (x & Hx & Hs); [|mem|intros; apply dec_strat_spec].
    exists l, x. split; [done|]. cbn [retried_times max_retries strat]. split; [eapply (field_num ks); [done|mem|done]|].
    split; [eapply (field_opt ks l Ho dec_num is_num); [mem|intros; apply is_num_spec|done]|]. done.
  - intros (l & x & E & Ht & Hm & Hx & Hs). pose proof (struct_once _ _ _ Hnd E) as Ho.
    apply as_struct_spec in E as ->; [|done].
    apply (field_num ks l Ho) in Ht; [|mem]. rewrite Ht. cbn [mbind option_bind].
    apply (field_opt ks l Ho dec_num) in Hm; [|mem|intros; apply is_num_spec]. rewrite Hm. cbn [mbind option_bind].
    apply (field_in ks l _ Ho) in Hx; [|mem]. rewrite Hx. cbn [mbind option_bind].
    apply dec_strat_spec in Hs as ->. cbn. by destruct r.
Qed.
Lemma dec_context_spec v c : dec_context v = Some c ↔ reads_context v c.
Proof.
  unfold dec_context, reads_context. set (ks := ["job_id"; _; _; _; _; _; _; _; _; _]).
  assert (NoDup ks) as Hnd by (by apply (bool_decide_eq_true_1 (NoDup _)); vm_compute).
  assert (∀ l i, once ks l → (match field "job_id" l with None => Some "" | Some v => dec_str v end) = Some i ↔
    (("job_id", JStr i) ∈ l ∨ lacks l "job_id" ∧ i = "")) as Hid.
  { intros l i Ho. assert (∀ x, field "job_id" l = Some x ↔ ("job_id", x) ∈ l) as Hf.
    { apply (field_in ks); [done|mem]. }
    destruct (field "job_id" l) as [x|] eqn:E.
    - split.
      + intros H. left. destruct x; try done. injection H as ->. by apply Hf.
      + intros [H|[H _]]; [apply Hf in H as [= ->]; done|]. exfalso. apply (H x). by apply Hf.
    - apply field_none in E. split; [intros [= <-]; by right|]. intros [H|[_ ->]]; [by apply E in H|done]. }
  assert (∀ l n, once ks l → (field "run_count" l ≫= dec_nat) = Some n ↔ ("run_count", JNum (Z.of_nat n)) ∈ l) as Hrc.
  { intros l n Ho. rewrite bind_Some. split.
    - intros (x & Hx & Hd). apply (field_in ks) in Hx; [|done|mem]. destruct x as [| |z| | |]; try done. cbn in Hd.
      destruct (Z.leb_spec 0 z); [|done]. injection Hd as <-. by rewrite Z2Nat.id by lia.
    - intros H. exists (JNum (Z.of_nat n)). split; [apply (field_in ks); [done|mem|done]|]. cbn.
      rewrite (proj2 (Z.leb_le 0 _)) by lia. by rewrite Nat2Z.id. }
  split.
  - destruct (as_struct ks v) as [l|] eqn:E; [|done]. apply as_struct_spec in E; [|done].
    pose proof (struct_once _ _ _ Hnd E) as Ho. intros H.
    apply bind_Some in H as (id & Hi & H). apply bind_Some in H as (ty & Ht & H). apply bind_Some in H as (st & Hs & H).
    apply bind_Some in H as (re & Hr & H). apply bind_Some in H as (ca & Hca & H). apply bind_Some in H as (eq & Heq & H).
    apply bind_Some in H as (ra & Hra & H). apply bind_Some in H as (co & Hco & H). apply bind_Some in H as (cn & Hcn & H).
    apply bind_Some in H as (rc & Hc & [= <-]).
    apply (field_of ks l Ho dec_type reads_type) in Ht as (x & Hx & Ht); [|mem|intros; apply dec_type_spec].
    apply (field_of ks l Ho dec_status reads_status) in Hs as (y & Hy & Hs); [|mem|intros; apply dec_status_spec].
    exists l, x, y. split; [done|]. cbn [job_id jtype jstatus jretry created_at enqueue_at run_at complete_at cancel_at run_count].
    split; [by apply Hid|]. split; [done|]. split; [done|]. split; [done|]. split; [done|].
    split; [by eapply (field_opt ks l Ho dec_retry); [mem|intros; apply dec_retry_spec|]|].
    split; [by apply (field_num ks l Ho); [mem|]|].
    split; [by eapply (field_opt ks l Ho dec_num); [mem|intros; apply is_num_spec|]|].
    split; [by eapply (field_opt ks l Ho dec_num); [mem|intros; apply is_num_spec|]|].
    split; [by eapply (field_opt ks l Ho dec_num); [mem|intros; apply is_num_spec|]|].
    split; [by eapply (field_opt ks l Ho dec_num); [mem|intros; apply is_num_spec|]|].
    by apply Hrc.
  - intros (l & x & y & E & Hi & Hx & Ht & Hy & Hs & Hr & Hca & Heq & Hra & Hco & Hcn & Hc).
    pose proof (struct_once _ _ _ Hnd E) as Ho. apply as_struct_spec in E as ->; [|done].
    apply Hid in Hi; [|done]. rewrite Hi. cbn [mbind option_bind].
    apply (field_in ks l _ Ho) in Hx; [|mem]. rewrite Hx. cbn [mbind option_bind]. apply dec_type_spec in Ht as ->.
    apply (field_in ks l _ Ho) in Hy; [|mem]. rewrite Hy. cbn [mbind option_bind]. apply dec_status_spec in Hs as ->.
    cbn [mbind option_bind].
    apply (field_opt ks l Ho dec_retry) in Hr; [|mem|intros; apply dec_retry_spec]. rewrite Hr. cbn [mbind option_bind].
    apply (field_num ks l Ho) in Hca; [|mem]. rewrite Hca. cbn [mbind option_bind].
    apply (field_opt ks l Ho dec_num) in Heq; [|mem|intros; apply is_num_spec]. rewrite Heq. cbn [mbind option_bind].
    apply (field_opt ks l Ho dec_num) in Hra; [|mem|intros; apply is_num_spec]. rewrite Hra. cbn [mbind option_bind].
    apply (field_opt ks l Ho dec_num) in Hco; [|mem|intros; apply is_num_spec]. rewrite Hco. cbn [mbind option_bind].
    apply (field_opt ks l Ho dec_num) in Hcn; [|mem|intros; apply is_num_spec]. rewrite Hcn. cbn [mbind option_bind].
    apply Hrc in Hc; [|done]. rewrite Hc. cbn. by destruct c.
Qed.
Lemma dec_job_spec {M} `{Serde M} v (j : job M) : dec_job v = Some j ↔ reads_job v j.
Proof.
  unfold dec_job, reads_job. set (ks := ["context"; "data"]).
  assert (NoDup ks) as Hnd by (by apply (bool_decide_eq_true_1 (NoDup _)); vm_compute).
  split.
  - destruct (as_struct ks v) as [l|] eqn:E; [|done]. apply as_struct_spec in E; [|done].
    pose proof (struct_once _ _ _ Hnd E) as Ho. intros Hj.
    apply bind_Some in Hj as (c & Hc & Hj). apply bind_Some in Hj as (d & Hd & [= <-]).
    apply (field_of ks l Ho dec_context reads_context) in Hc as (x & Hx & Hc); [|mem|intros; apply dec_context_spec].
    apply (field_of ks l Ho de (λ x a, de x = Some a)) in Hd as (y & Hy & Hd); [|mem|done].
    exists l, x, y. done.
  - intros (l & x & y & E & Hx & Hc & Hy & Hd). pose proof (struct_once _ _ _ Hnd E) as Ho.
    apply as_struct_spec in E as ->; [|done].
    apply (field_in ks l _ Ho) in Hx; [|mem]. rewrite Hx. cbn [mbind option_bind]. apply dec_context_spec in Hc as ->.
    cbn [mbind option_bind]. apply (field_in ks l _ Ho) in Hy; [|mem]. rewrite Hy. cbn [mbind option_bind].
    rewrite Hd. cbn. by destruct j.
Qed.

(** More fields, in any order. *)
Lemma reads_more {M} `{Serde M} l l' (j : job M) :
  (∀ k x, k ∈ ["context"; "data"] → (k, x) ∈ l ↔ (k, x) ∈ l') →
  NoDup (l.*1) → NoDup (l'.*1) → dec_job (JObj l) = Some j → dec_job (JObj l') = Some j.
Proof.
  intros Hl Hn Hn' Hj. apply dec_job_spec in Hj as (l0 & c & d & Hs & Hc & Hrc & Hd & Hrd). apply dec_job_spec.
  destruct Hs as [[[= ->] _]|(? & ? & _)]; [|done].
  exists l', c, d. split; [|split; [apply Hl; [mem|done]|split; [done|split; [apply Hl; [mem|done]|done]]]].
  left. split; [done|]. intros k _ i i' x x' H1 H2. eapply NoDup_lookup; [exact Hn'|..].
  - rewrite list_lookup_fmap, H1. done.
  - rewrite list_lookup_fmap, H2. done.
Qed.
