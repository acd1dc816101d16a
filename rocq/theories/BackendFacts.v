(** Facts about the backends: proofs for C01-C05. *)
From Verif Require Import Spec.

(** ** InMemory against double-ended lists *)

Definition ql (s : store) (q : string) : list string := default [] (queues s !! q).

Lemma pop_from_end d l :
  pop d l = match from_end d l with [] => None | x :: l' => Some (x, from_end d l') end.
Proof. destruct d; reflexivity. Qed.

Lemma from_end_invol d l : from_end d (from_end d l) = l.
Proof. destruct d; cbn; [done|apply rev_involutive]. Qed.

Lemma pop_n_spec d n l :
  pop_n d n l = (take n (from_end d l), from_end d (drop n (from_end d l))).
Proof.
  revert l; induction n as [|n IH]; intros l; cbn [pop_n].
  - by rewrite drop_0, from_end_invol.
  - rewrite pop_from_end. destruct (from_end d l) as [|x l'] eqn:E.
    + rewrite IH, E, take_nil, drop_nil. by destruct n.
    + rewrite IH, from_end_invol. done.
Qed.

Lemma insert_item_put q x d : insert_item q x d = put_end d q [x].
Proof. destruct d; done. Qed.

Lemma put_end_cons d l x xs : put_end d (insert_item l x d) xs = put_end d l (x :: xs).
Proof. destruct d; cbn; rewrite <-app_assoc; done. Qed.

Lemma push_all_lookup qs to d items q :
  default [] (push_all qs to d items !! q) =
  (if String.eqb q to then put_end d (default [] (qs !! to)) items else default [] (qs !! q)).
Proof.
  revert qs; induction items as [|x xs IH]; intros qs; cbn [push_all].
  - destruct (String.eqb_spec q to) as [->|]; [|done]. destruct d; cbn; [|rewrite app_nil_r]; done.
  - rewrite IH. clear IH. destruct (String.eqb_spec q to) as [->|Hne].
    + rewrite <-put_end_cons. f_equal.
      destruct (qs !! to); rewrite lookup_insert; cbn; [done|]. destruct d; done.
    + destruct (qs !! to); rewrite lookup_insert_ne by done; done.
Qed.

Lemma mem_push_ql s q x q' :
  ql (mem_push s q x) q' = upd (ql s) q (x :: ql s q) q'.
Proof.
  unfold ql, mem_push, upd. destruct (queues s !! q) eqn:E; cbn;
    destruct (String.eqb_spec q' q) as [->|Hne];
    rewrite ?lookup_insert, ?lookup_insert_ne by done; done.
Qed.

Lemma mem_move_ql s f t n fd td :
  snd (mem_move s f t n fd td) = take n (from_end fd (ql s f)) ∧
  ∀ q, ql (fst (mem_move s f t n fd td)) q =
    (let m := upd (ql s) f (from_end fd (drop n (from_end fd (ql s f)))) in
     upd m t (put_end td (m t) (take n (from_end fd (ql s f)))) q).
Proof.
  unfold mem_move. destruct (queues s !! f) as [l|] eqn:E.
  - assert (ql s f = l) as -> by (unfold ql; by rewrite E).
    rewrite pop_n_spec. cbn [fst snd]. split; [done|]. intros q. unfold ql at 1.
    cbn [queues]. rewrite push_all_lookup. unfold upd, ql.
    destruct (String.eqb_spec q t) as [->|Hne].
    + f_equal. destruct (String.eqb_spec t f) as [->|Hne2].
      * by rewrite lookup_insert.
      * by rewrite lookup_insert_ne by done.
    + destruct (String.eqb_spec q f) as [->|Hne2].
      * by rewrite lookup_insert.
      * by rewrite lookup_insert_ne by done.
  - assert (ql s f = []) as -> by (unfold ql; by rewrite E).
    cbn [fst snd]. destruct fd; cbn [from_end rev]; rewrite take_nil, drop_nil; cbn;
    (split; [done|]); intros q; unfold upd;
    (destruct (String.eqb_spec q t) as [->|Hne];
     [ destruct (String.eqb_spec t f) as [->|Hne2]; unfold ql; rewrite ?E; destruct td; cbn;
       rewrite ?app_nil_r; done
     | destruct (String.eqb_spec q f) as [->|Hne2]; unfold ql; rewrite ?E; done ]).
Qed.

Lemma mem_move_storages s f t n fd td : storages (fst (mem_move s f t n fd td)) = storages s.
Proof. unfold mem_move. destruct (queues s !! f); [|done]. destruct (pop_n _ _ _); done. Qed.
Lemma mem_push_storages s q x : storages (mem_push s q x) = storages s.
Proof. unfold mem_push. destruct (queues s !! q); done. Qed.
Lemma mem_remove_storages s q x : storages (mem_remove s q x) = storages s.
Proof. unfold mem_remove. destruct (queues s !! q); done. Qed.
Lemma mem_upsert_queues s h k v : queues (mem_upsert s h k v) = queues s.
Proof. unfold mem_upsert. destruct (storages s !! h); done. Qed.

Lemma mem_remove_ql s q x q' :
  ql (mem_remove s q x) q' = upd (ql s) q (filter (λ y, y ≠ x) (ql s q)) q'.
Proof.
  unfold ql, mem_remove, upd. destruct (queues s !! q) eqn:E; cbn;
    destruct (String.eqb_spec q' q) as [->|Hne];
    rewrite ?lookup_insert, ?lookup_insert_ne, ?E by done; done.
Qed.

Lemma omap_lookup_seq (l : list string) a n :
  omap (λ i, l !! i) (seq a n) = take n (drop a l).
Proof.
  revert a; induction n as [|n IH]; intros a; [done|].
  cbn [seq omap list_omap]. change (list_omap string nat) with (@omap list list_omap nat string).
  destruct (l !! a) as [x|] eqn:E.
  - rewrite (drop_S _ x a) by done. cbn. by rewrite IH.
  - rewrite IH. apply lookup_ge_None in E.
    rewrite !drop_ge by lia. by rewrite !take_nil.
Qed.

Lemma omap_rev {A B} (f : A → option B) l : omap f (rev l) = rev (omap f l).
Proof.
  induction l as [|x l IH]; [done|]. cbn [rev]. rewrite omap_app, IH. cbn.
  destruct (f x); cbn; by rewrite ?app_nil_r.
Qed.

Lemma mem_get_spec s q n d : mem_get s q n d = take n (from_end d (ql s q)).
Proof.
  unfold mem_get, ql. destruct (queues s !! q) as [l|]; cbn [default].
  2:{ destruct d; cbn; by rewrite take_nil. }
  destruct d; cbn [from_end].
  - rewrite omap_lookup_seq. by rewrite drop_0.
  - rewrite omap_rev, omap_lookup_seq.
    destruct (Nat.ltb_spec n (length l)).
    + replace (length l - (length l - n))%nat with n by lia.
      rewrite take_ge by (rewrite drop_length; lia).
      symmetry. apply firstn_rev.
    + rewrite drop_0, take_ge by lia. change (id l) with l.
      rewrite take_ge; [done|]. rewrite rev_length; lia.
Qed.

Lemma mem_count_spec s q : mem_count s q = length (ql s q).
Proof. unfold mem_count, ql. by destruct (queues s !! q). Qed.

Lemma mem_upsert_sget s h k v h' k' :
  mem_sget (mem_upsert s h k v) h' k' =
  if String.eqb h' h && String.eqb k' k then Some v else mem_sget s h' k'.
Proof.
  unfold mem_sget, mem_upsert.
  destruct (storages s !! h) as [m|] eqn:E; cbn [storages];
    destruct (String.eqb_spec h' h) as [->|Hne]; cbn [andb];
    rewrite ?lookup_insert, ?lookup_insert_ne by done; try done.
  - destruct (String.eqb_spec k' k) as [->|Hne].
    + by rewrite lookup_insert.
    + rewrite lookup_insert_ne by done. by rewrite E.
  - destruct (String.eqb_spec k' k) as [->|Hne].
    + by rewrite lookup_singleton.
    + rewrite lookup_singleton_ne by done. by rewrite E.
Qed.

(** Simulation of handlers extends to programs. *)
Lemma run_sim {W1 W2 A} (h1 : handler W1) (h2 : handler W2) (R : W1 → W2 → Prop)
    (Hsim : ∀ (X : Set) (e : eff X) w1 w2, R w1 w2 →
      snd (h1 X e w1) = snd (h2 X e w2) ∧ R (fst (h1 X e w1)) (fst (h2 X e w2)))
    (p : prog A) w1 w2 :
  R w1 w2 → snd (run h1 p w1) = snd (run h2 p w2) ∧ R (fst (run h1 p w1)) (fst (run h2 p w2)).
Proof.
  revert w1 w2; induction p as [a| | |X e k IH]; intros w1 w2 HR; cbn; try done.
  destruct (Hsim X e w1 w2 HR) as [Hx Hw].
  destruct (h1 X e w1), (h2 X e w2); cbn in *. subst. by apply IH.
Qed.

Definition deque_rel (w : world) (d : dworld) : Prop :=
  (∀ q, ql (st w) q = dq d q) ∧ (∀ h k, mem_sget (st w) h k = ds d h k) ∧
  reads w = dreads d ∧ log w = dlog d.

Lemma deque_sim clock (X : Set) (e : eff X) w d :
  deque_rel w d →
  snd (mem_h clock X e w) = snd (deque_h clock X e d) ∧
  deque_rel (fst (mem_h clock X e w)) (fst (deque_h clock X e d)).
Proof.
  intros (Hq & Hs & Hr & Hl). destruct e; cbn.
  - split; [done|]. repeat split; cbn; try done.
    + intros q'. rewrite mem_push_ql. unfold upd. rewrite !Hq. destruct (String.eqb q' queue); auto.
    + intros h k. unfold mem_sget. rewrite mem_push_storages. apply Hs.
  - destruct (mem_move_ql (st w) from to count fd td) as [H1 H2].
    pose proof (mem_move_storages (st w) from to count fd td) as H3.
    destruct (mem_move (st w) from to count fd td) as [s l]; cbn in *. subst l.
    split; [by rewrite Hq|]. repeat split; cbn; try done.
    + intros q. rewrite H2. unfold upd. rewrite !Hq.
      destruct (String.eqb q to); destruct (String.eqb to from); auto;
      destruct (String.eqb q from); auto.
    + intros h k. unfold mem_sget. rewrite H3. apply Hs.
  - split; [done|]. repeat split; cbn; try done.
    + intros q'. rewrite mem_remove_ql. unfold upd. rewrite !Hq. destruct (String.eqb q' queue); auto.
    + intros h k. unfold mem_sget. rewrite mem_remove_storages. apply Hs.
  - rewrite mem_get_spec, Hq. done.
  - rewrite mem_count_spec, Hq. done.
  - split; [done|]. repeat split; cbn; try done.
    + intros q'. unfold ql. rewrite mem_upsert_queues. apply Hq.
    + intros h k. rewrite mem_upsert_sget. unfold upd. rewrite Hs.
      destruct (String.eqb_spec h hash) as [->|]; cbn; [|done]. by destruct (String.eqb k key).
  - by rewrite Hs.
  - rewrite Hr. done.
  - rewrite Hl. done.
Qed.

Lemma deque_run clock {A} (p : prog A) w d :
  deque_rel w d →
  snd (run (mem_h clock) p w) = snd (run (deque_h clock) p d) ∧
  deque_rel (fst (run (mem_h clock) p w)) (fst (run (deque_h clock) p d)).
Proof. apply run_sim. intros. by apply deque_sim. Qed.

Lemma deque_rel_empty : deque_rel world_empty dworld_empty.
Proof. repeat split; intros; cbn; done. Qed.

(** Storage. *)
Lemma last_write_gen clock cs w hash key :
  mem_sget (st (run_calls (mem_h clock) cs w)) hash key =
  match last_write hash key cs with Some v => Some v | None => mem_sget (st w) hash key end.
Proof.
  revert w; induction cs as [|[X e] cs IH]; intros w; cbn [run_calls last_write]; [done|].
  rewrite IH. destruct (last_write hash key cs); [done|].
  destruct e; cbn.
  - unfold mem_sget. by rewrite mem_push_storages.
  - pose proof (mem_move_storages (st w) from to count fd td) as H3.
    destruct (mem_move (st w) from to count fd td) as [s l]; cbn in *.
    unfold mem_sget. by rewrite H3.
  - unfold mem_sget. by rewrite mem_remove_storages.
  - done.
  - done.
  - rewrite mem_upsert_sget. rewrite (String.eqb_sym hash), (String.eqb_sym key).
    by destruct (_ && _).
  - done.
  - done.
  - done.
Qed.

(** Moves keep the items. *)
Definition items_of (m : gmap string (list string)) : list string := concat (map snd (map_to_list m)).

Lemma items_of_insert_new m q l : m !! q = None → items_of (<[q := l]> m) ≡ₚ l ++ items_of m.
Proof.
  intros H. unfold items_of. rewrite map_to_list_insert by done. done.
Qed.
Lemma items_of_insert m q l0 l : m !! q = Some l0 →
  l0 ++ items_of (<[q := l]> m) ≡ₚ l ++ items_of m.
Proof.
  intros H. rewrite <-insert_delete_insert, items_of_insert_new by apply lookup_delete.
  rewrite <-(insert_id m q l0) at 2 by done.
  rewrite <-insert_delete_insert, items_of_insert_new by apply lookup_delete.
  rewrite !app_assoc. apply Permutation_app_tail. apply Permutation_app_comm.
Qed.

Lemma items_of_push_all m t d items :
  items_of (push_all m t d items) ≡ₚ items ++ items_of m.
Proof.
  revert m; induction items as [|x xs IH]; intros m; cbn [push_all]; [done|].
  rewrite IH. clear IH.
  destruct (m !! t) as [l|] eqn:E.
  - assert (items_of (<[t := insert_item l x d]> m) ≡ₚ x :: items_of m) as ->.
    { apply (Permutation_app_inv_l l).
      rewrite (items_of_insert _ _ l) by done.
      destruct d; cbn.
      - by rewrite <-Permutation_middle.
      - rewrite <-app_assoc. done. }
    by rewrite <-Permutation_middle.
  - rewrite items_of_insert_new by done. cbn. by rewrite <-Permutation_middle.
Qed.

Lemma from_end_perm d l : from_end d l ≡ₚ l.
Proof. destruct d; cbn; [done|]. symmetry. apply Permutation_rev. Qed.

Lemma mem_move_items s f t n fd td : all_items (fst (mem_move s f t n fd td)) ≡ₚ all_items s.
Proof.
  unfold mem_move. destruct (queues s !! f) as [l|] eqn:E; [|done].
  rewrite pop_n_spec. cbn [fst]. unfold all_items; cbn [queues].
  fold (items_of (queues s)). fold (items_of (push_all (<[f := from_end fd (drop n (from_end fd l))]> (queues s)) t td
       (take n (from_end fd l)))).
  rewrite items_of_push_all.
  apply (Permutation_app_inv_l l).
  rewrite (Permutation_app_swap_app l).
  rewrite (items_of_insert _ _ l) by done.
  rewrite app_assoc. apply Permutation_app_tail.
  rewrite (from_end_perm fd (drop _ _)), take_drop. apply from_end_perm.
Qed.

(** ** Redis against InMemory *)

Local Arguments rset : simpl never.
Local Arguments rlist : simpl never.
Local Arguments mem_push : simpl never.
Local Arguments mem_move : simpl never.
Local Arguments mem_remove : simpl never.
Local Arguments mem_upsert : simpl never.
Local Arguments mem_sget : simpl never.

Definition redis_rel (lk : string → Prop) (w : world) (r : rworld) : Prop :=
  (∀ q, lk q → rlist (keys r) q = Some (ql (st w) q)) ∧
  (∀ h, ¬ lk h → match keys r !! h with
                 | Some (RHash m) => ∀ k, mem_sget (st w) h k = m !! k
                 | Some (RList _) => False
                 | None => ∀ k, mem_sget (st w) h k = None
                 end) ∧
  reads w = rreads r ∧ log w = rlog r.

Lemma rlist_rset k q l q' :
  rlist (rset k q l) q' = if String.eqb q' q then Some l else rlist k q'.
Proof.
  unfold rlist, rset. destruct (String.eqb_spec q' q) as [->|Hne].
  - destruct l; cbv iota; [by rewrite lookup_delete|by rewrite lookup_insert].
  - destruct l; cbv iota; [by rewrite lookup_delete_ne by done|by rewrite lookup_insert_ne by done].
Qed.
Lemma rset_lookup_ne k q l q' : q' ≠ q → rset k q l !! q' = k !! q'.
Proof. intros. unfold rset. destruct l; [by rewrite lookup_delete_ne|by rewrite lookup_insert_ne]. Qed.

Lemma r_lmove1_spec k f t fd td lf lt :
  rlist k f = Some lf → rlist k t = Some lt →
  match from_end fd lf with
  | [] => r_lmove1 k f t fd td = (k, Ok None)
  | x :: l' => ∃ k', r_lmove1 k f t fd td = (k', Ok (Some x)) ∧
      (∀ q, rlist k' q = let m := λ q, if String.eqb q f then Some (from_end fd l') else rlist k q in
                if String.eqb q t then (λ l, insert_item l x td) <$> m t else m q) ∧
      (∀ q, q ≠ f → q ≠ t → k' !! q = k !! q)
  end.
Proof.
  intros Hf Ht. unfold r_lmove1. rewrite Hf, pop_from_end.
  destruct (from_end fd lf) as [|x l']; [done|]. rewrite Ht.
  rewrite rlist_rset. destruct (String.eqb_spec t f) as [->|Hne].
  - eexists; split; [done|]. split.
    + intros q. rewrite !rlist_rset. destruct (String.eqb q f); done.
    + intros q H1 H2. by rewrite !rset_lookup_ne by done.
  - rewrite Ht. eexists; split; [done|]. split.
    + intros q. rewrite !rlist_rset. cbv zeta beta.
      destruct (String.eqb_spec q t) as [->|]; [|done].
      replace (String.eqb t f) with false by (symmetry; by apply String.eqb_neq). done.
    + intros q H1 H2. by rewrite !rset_lookup_ne by done.
Qed.

Lemma r_lmove_ne k f t n fd td lf lt : f ≠ t →
  rlist k f = Some lf → rlist k t = Some lt →
  ∃ k', r_lmove k f t n fd td = (k', Ok (take n (from_end fd lf))) ∧
    rlist k' f = Some (from_end fd (drop n (from_end fd lf))) ∧
    rlist k' t = Some (put_end td lt (take n (from_end fd lf))) ∧
    (∀ q, q ≠ f → q ≠ t → k' !! q = k !! q).
Proof.
  intros Hne. revert k lf lt. induction n as [|n IH]; intros k lf lt Hf Ht; cbn [r_lmove].
  - eexists; split; [done|]. rewrite drop_0, from_end_invol. split; [done|]. split; [|done].
    rewrite Ht. destruct td; cbn; by rewrite ?app_nil_r.
  - pose proof (r_lmove1_spec k f t fd td lf lt Hf Ht) as Hs.
    destruct (from_end fd lf) as [|x l'] eqn:E.
    + rewrite Hs. destruct (IH k lf lt Hf Ht) as (k' & Hr & Hf' & Ht' & Hq).
      rewrite E, take_nil, drop_nil in *. rewrite Hr. eauto.
    + destruct Hs as (k1 & -> & Hl & Hq1).
      assert (String.eqb f t = false) as Eft by (by apply String.eqb_neq).
      assert (String.eqb t f = false) as Etf by (apply String.eqb_neq; congruence).
      assert (rlist k1 f = Some (from_end fd l')) as Hf1.
      { rewrite Hl. rewrite Eft. cbn. by rewrite String.eqb_refl. }
      assert (rlist k1 t = Some (insert_item lt x td)) as Ht1.
      { rewrite Hl. rewrite String.eqb_refl. cbn. by rewrite Etf, Ht. }
      destruct (IH k1 _ _ Hf1 Ht1) as (k' & Hr & Hf' & Ht' & Hq).
      rewrite from_end_invol in *. rewrite Hr. exists k'. cbn [take drop].
      split; [done|]. split; [done|]. split.
      { rewrite Ht'. by rewrite put_end_cons. }
      intros q H1 H2. by rewrite Hq, Hq1.
Qed.

Lemma lrange_front (l : list string) n : (1 <= n)%nat → r_lrange l 0 (Z.of_nat n - 1) = take n l.
Proof.
  intros Hn. unfold r_lrange, lrange_idx. cbn [Z.ltb Z.compare]. change (0 <? 0) with false. cbn [orb].
  destruct l as [|x l].
  { cbn [length]. rewrite take_nil. destruct (_ || _); [done|]. by rewrite drop_nil, take_nil. }
  set (L := x :: l).
  assert (1 <= length L)%nat by (cbn; lia).
  replace (Z.of_nat n - 1 <? 0) with false by (symmetry; apply Z.ltb_ge; lia).
  replace (Z.min (Z.of_nat n - 1) (Z.of_nat (length L) - 1) <? 0) with false
    by (symmetry; apply Z.ltb_ge; lia).
  replace (Z.of_nat (length L) <=? 0) with false by (symmetry; apply Z.leb_gt; lia).
  cbn [orb]. change (Z.to_nat 0) with 0%nat. rewrite drop_0.
  destruct (decide (n <= length L)%nat).
  - f_equal. lia.
  - rewrite (take_ge L n) by lia. apply take_ge. lia.
Qed.

Lemma lrange_back (l : list string) n : (1 <= n)%nat →
  rev (r_lrange l (- Z.of_nat n) (-1)) = take n (rev l).
Proof.
  intros Hn. unfold r_lrange, lrange_idx.
  destruct l as [|x l].
  { cbn [length rev]. rewrite take_nil. destruct (_ || _); [done|]. by rewrite drop_nil, take_nil. }
  set (L := x :: l). assert (1 <= length L)%nat by (cbn; lia).
  replace (- Z.of_nat n <? 0) with true by (symmetry; apply Z.ltb_lt; lia).
  change (-1 <? 0) with true. cbn [orb].
  replace (Z.min (Z.of_nat (length L) + -1) (Z.of_nat (length L) - 1))
    with (Z.of_nat (length L) - 1) by lia.
  replace (Z.of_nat (length L) - 1 <? Z.max 0 (Z.of_nat (length L) + - Z.of_nat n)) with false
    by (symmetry; apply Z.ltb_ge; lia).
  replace (Z.of_nat (length L) <=? Z.max 0 (Z.of_nat (length L) + - Z.of_nat n)) with false
    by (symmetry; apply Z.leb_gt; lia).
  cbn [orb]. rewrite (take_ge (drop _ _)) by (rewrite drop_length; lia).
  rewrite (firstn_rev n L). f_equal. f_equal. lia.
Qed.

Lemma lrange_lookup (l : list string) (s e i : nat) :
  r_lrange l (Z.of_nat s) (Z.of_nat e) !! i = if decide (s + i ≤ e)%nat then l !! (s + i)%nat else None.
Proof.
  unfold r_lrange, lrange_idx.
  replace (Z.of_nat s <? 0) with false by (symmetry; apply Z.ltb_ge; lia).
  replace (Z.of_nat e <? 0) with false by (symmetry; apply Z.ltb_ge; lia). cbv zeta.
  destruct (_ || _) eqn:Hb.
  - apply orb_true_iff in Hb. rewrite lookup_nil. destruct (decide _); [|done].
    symmetry. apply lookup_ge_None. destruct Hb as [Hb|Hb]; [apply Z.ltb_lt in Hb|apply Z.leb_le in Hb]; lia.
  - apply orb_false_iff in Hb as [H1 H2]. apply Z.ltb_ge in H1. apply Z.leb_gt in H2.
    rewrite Nat2Z.id. destruct (decide _).
    + destruct (decide (s + i < length l)%nat).
      * rewrite lookup_take by lia. apply lookup_drop.
      * rewrite !(proj2 (lookup_ge_None _ _)); [done|lia|]. rewrite take_length, drop_length. lia.
    + apply lookup_ge_None. rewrite take_length. lia.
Qed.
Lemma lrange_from_end (l : list string) (s e : nat) : (s < length l)%nat → (e < length l)%nat →
  r_lrange l (Z.of_nat s - Z.of_nat (length l)) (Z.of_nat e - Z.of_nat (length l)) =
  r_lrange l (Z.of_nat s) (Z.of_nat e).
Proof.
  intros Hs He. unfold r_lrange, lrange_idx.
  replace (Z.of_nat s <? 0) with false by (symmetry; apply Z.ltb_ge; lia).
  replace (Z.of_nat e <? 0) with false by (symmetry; apply Z.ltb_ge; lia).
  replace (Z.of_nat s - Z.of_nat (length l) <? 0) with true by (symmetry; apply Z.ltb_lt; lia).
  replace (Z.of_nat e - Z.of_nat (length l) <? 0) with true by (symmetry; apply Z.ltb_lt; lia).
  replace (Z.max 0 (Z.of_nat (length l) + (Z.of_nat s - Z.of_nat (length l)))) with (Z.of_nat s) by lia.
  replace (Z.of_nat (length l) + (Z.of_nat e - Z.of_nat (length l))) with (Z.of_nat e) by lia.
  done.
Qed.

Lemma redis_sim lk (Hlk : ∀ q, Decision (lk q)) clock (X : Set) (e : eff X) w r :
  portable_call lk e → redis_rel lk w r →
  snd (mem_h clock X e w) = snd (redis_h clock X e r) ∧
  redis_rel lk (fst (mem_h clock X e w)) (fst (redis_h clock X e r)).
Proof.
  intros Hp (Hq & Hs & Hr & Hl). destruct e; cbn in Hp |- *.
  - unfold r_lpush. rewrite (Hq _ Hp). cbn. split; [done|]. split; [|split; [|done]]; cbn.
    + intros q' Hq'. rewrite rlist_rset, mem_push_ql. unfold upd.
      destruct (String.eqb q' queue); auto.
    + intros h Hh. assert (h ≠ queue) by (intros ->; done).
      rewrite rset_lookup_ne by done. specialize (Hs h Hh).
      unfold mem_sget in *. rewrite mem_push_storages. done.
  - destruct Hp as (Hf & Ht & Hn).
    destruct (mem_move_ql (st w) from to count fd td) as [H1 H2].
    pose proof (mem_move_storages (st w) from to count fd td) as H3.
    destruct (mem_move (st w) from to count fd td) as [s l]; cbn in *. subst l.
    assert (∃ k', r_lmove (keys r) from to count fd td = (k', Ok (take count (from_end fd (ql (st w) from)))) ∧
      (∀ q, lk q → rlist k' q = Some (ql s q)) ∧ (∀ q, q ≠ from → q ≠ to → k' !! q = keys r !! q))
      as (k' & Hk & Hkq & Hkh).
    { destruct (decide (from = to)) as [->|Hne].
      - destruct Hn as [Hn|Hn]; [done|]. destruct count as [|[|c]]; [| |lia].
        + cbn. eexists; split; [done|]. split; [|done]. intros q Hq'. rewrite H2, (Hq q Hq').
          unfold upd. rewrite drop_0, from_end_invol, String.eqb_refl.
          destruct (String.eqb_spec q to) as [->|]; [|done].
          destruct td; cbn; by rewrite ?app_nil_r.
        + cbn [r_lmove]. pose proof (r_lmove1_spec (keys r) to to fd td _ _ (Hq _ Hf) (Hq _ Hf)) as Hm.
          destruct (from_end fd (ql (st w) to)) as [|x l'] eqn:E.
          * rewrite Hm. eexists; split; [done|]. split; [|done]. intros q Hq'. rewrite H2, (Hq q Hq').
            unfold upd. rewrite String.eqb_refl.
            destruct (String.eqb_spec q to) as [->|]; [|done]. f_equal.
            apply (f_equal (from_end fd)) in E. rewrite from_end_invol in E. rewrite E.
            destruct fd, td; done.
          * destruct Hm as (k1 & -> & Hk1 & Hk2). eexists; split; [done|]. split; [|done].
            intros q Hq'. rewrite Hk1, H2. cbn. unfold upd. rewrite String.eqb_refl. cbn.
            destruct (String.eqb q to); [by rewrite insert_item_put|by apply Hq].
      - destruct (r_lmove_ne (keys r) from to count fd td _ _ Hne (Hq _ Hf) (Hq _ Ht))
          as (k' & Hk & Hkf & Hkt & Hkq). exists k'. split; [done|]. split; [|done].
        intros q Hq'. rewrite H2. unfold upd.
        destruct (String.eqb_spec q to) as [->|Hqt].
        + rewrite Hkt. replace (String.eqb to from) with false; [done|].
          symmetry; apply String.eqb_neq; congruence.
        + destruct (String.eqb_spec q from) as [->|Hqf]; [done|].
          rewrite <-(Hq q Hq'). unfold rlist. by rewrite Hkq. }
    rewrite Hk. cbn. split; [done|]. split; [done|]. split; [|done].
    intros h Hh. rewrite Hkh by (intros ->; done). specialize (Hs h Hh).
    unfold mem_sget in *. cbn. rewrite H3. done.
  - unfold r_lrem. rewrite (Hq _ Hp). cbn. split; [done|]. split; [|split; [|done]]; cbn.
    + intros q' Hq'. rewrite rlist_rset, mem_remove_ql. unfold upd.
      destruct (String.eqb q' queue); auto.
    + intros h Hh. assert (h ≠ queue) by (intros ->; done).
      rewrite rset_lookup_ne by done. specialize (Hs h Hh).
      unfold mem_sget in *. rewrite mem_remove_storages. done.
  - destruct Hp as [Hp Hc]. unfold r_get. rewrite (Hq _ Hp), mem_get_spec. split; [|done].
    f_equal. destruct d; cbn [from_end]; [by rewrite lrange_front|by rewrite lrange_back].
  - unfold r_llen. rewrite (Hq _ Hp), mem_count_spec. done.
  - unfold r_hset. pose proof (Hs _ Hp) as Hh.
    assert (∀ k' m, keys r !! hash = m → (∀ h, h ≠ hash → k' !! h = keys r !! h) →
      (match k' !! hash with Some (RHash m) => ∀ k, mem_sget (mem_upsert (st w) hash key v) hash k = m !! k | _ => False end) →
      redis_rel lk (set_st w (mem_upsert (st w) hash key v)) (set_keys r k')) as Hgoal.
    { intros k' m Hm Hne Hk'. split; [|split; [|done]]; cbn.
      - intros q Hq'. assert (q ≠ hash) by (intros ->; done).
        unfold ql. rewrite mem_upsert_queues. fold (ql (st w) q). rewrite <-(Hq q Hq').
        unfold rlist. by rewrite Hne.
      - intros h Hh'. destruct (decide (h = hash)) as [->|Hnh].
        + destruct (k' !! hash) as [[|]|]; done.
        + rewrite Hne by done. specialize (Hs h Hh').
          assert (∀ k, mem_sget (mem_upsert (st w) hash key v) h k = mem_sget (st w) h k) as Heq.
          { intros k. rewrite mem_upsert_sget.
            by replace (String.eqb h hash) with false by (symmetry; by apply String.eqb_neq). }
          destruct (keys r !! h) as [[|]|]; [done| |]; intros k; rewrite Heq; apply Hs. }
    destruct (keys r !! hash) as [[|m]|] eqn:E; [done| |]; cbn.
    + split; [done|]. eapply Hgoal; [done| |].
      * intros h Hne. by rewrite lookup_insert_ne.
      * rewrite lookup_insert. intros k. rewrite mem_upsert_sget, String.eqb_refl. cbn.
        destruct (String.eqb_spec k key) as [->|]; [by rewrite lookup_insert|].
        rewrite lookup_insert_ne by done. apply Hh.
    + split; [done|]. eapply Hgoal; [done| |].
      * intros h Hne. by rewrite lookup_insert_ne.
      * rewrite lookup_insert. intros k. rewrite mem_upsert_sget, String.eqb_refl. cbn.
        destruct (String.eqb_spec k key) as [->|]; [by rewrite lookup_singleton|].
        rewrite lookup_singleton_ne by done. apply Hh.
  - unfold r_hget. pose proof (Hs _ Hp) as Hh. destruct (keys r !! hash) as [[|m]|]; [done| |];
      rewrite Hh; done.
  - rewrite Hr. done.
  - rewrite Hl. done.
Qed.

Lemma redis_run lk (Hlk : ∀ q, Decision (lk q)) clock {A} (p : prog A) w r :
  portable lk p → redis_rel lk w r →
  snd (run (mem_h clock) p w) = snd (run (redis_h clock) p r) ∧
  redis_rel lk (fst (run (mem_h clock) p w)) (fst (run (redis_h clock) p r)).
Proof.
  revert w r; induction p as [a| | |X e k IH]; intros w r Hp HR; cbn in *; try done.
  destruct Hp as [Hc Hk].
  destruct (redis_sim lk Hlk clock X e w r Hc HR) as [Hx Hw].
  destruct (mem_h clock X e w), (redis_h clock X e r); cbn in *. subst. by apply IH.
Qed.

Lemma redis_run_n lk (Hlk : ∀ q, Decision (lk q)) clock {A} n (p : prog A) w r :
  portable lk p → redis_rel lk w r →
  redis_rel lk (run_n (mem_h clock) n p w) (run_n (redis_h clock) n p r).
Proof.
  revert p w r; induction n as [|n IH]; intros p w r Hp HR; [by destruct p|].
  destruct p as [| | |X e k]; cbn in *; try done.
  destruct Hp as [Hc Hk].
  destruct (redis_sim lk Hlk clock X e w r Hc HR) as [Hx Hw].
  destruct (mem_h clock X e w), (redis_h clock X e r); cbn in *. subst. by apply IH.
Qed.

Lemma redis_rel_empty lk : redis_rel lk world_empty rworld_empty.
Proof. repeat split; cbn; intros; by rewrite ?lookup_empty. Qed.

(** ** Queue keys *)

Fixpoint chars (s : string) : list Ascii.ascii :=
  match s with EmptyString => [] | String c s' => c :: chars s' end.
Lemma chars_app s t : chars (s +:+ t) = chars s ++ chars t.
Proof.
  induction s as [|c s IH]; [done|].
  change (c :: chars (s +:+ t) = c :: (chars s ++ chars t)). by rewrite IH.
Qed.
Lemma chars_inj s t : chars s = chars t → s = t.
Proof. revert t; induction s; intros [|]; cbn; intros; try congruence. f_equal; [congruence|]. apply IHs. congruence. Qed.

Lemma queue_key_inj n1 s1 n2 s2 :
  format_queue_name n1 s1 = format_queue_name n2 s2 → n1 = n2 ∧ s1 = s2.
Proof.
  intros H. apply (f_equal chars) in H. unfold format_queue_name in H.
  rewrite !chars_app, !app_assoc in H.
  apply (f_equal (@rev _)) in H. rewrite !rev_app_distr in H.
  destruct s1, s2; cbn in H; try congruence; injection H as H;
    apply (f_equal (@rev _)) in H; rewrite !rev_involutive in H; by apply chars_inj in H.
Qed.

Lemma queue_key_not_storage n s : format_queue_name n s ≠ STORAGE_HASH.
Proof.
  intros H. apply (f_equal chars) in H. unfold format_queue_name in H.
  rewrite !chars_app in H. apply (f_equal (@rev _)) in H. rewrite !rev_app_distr in H.
  destruct s; cbn in H; congruence.
Qed.
