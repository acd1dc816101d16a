(** Proofs about the storage encoding. *)
From Verif Require Export Json.

Lemma dec_enc_opt {A} (f : A → json) (g : json → option A) (h : A → A) (o : option A) :
  (∀ a, f a ≠ JNull) → (∀ a, g (f a) = Some (h a)) →
  dec_opt g (Some (enc_opt f o)) = Some (h <$> o).
Proof.
  intros Hn Hg. destruct o as [a|]; simpl; [|done].
  specialize (Hn a); specialize (Hg a). destruct (f a); rewrite ?Hg; done.
Qed.

Lemma dec_enc_num_opt (o : option Z) : dec_opt dec_num (Some (enc_opt JNum o)) = Some o.
Proof. by destruct o. Qed.

Lemma dec_enc_status s : dec_status (enc_status s) = Some s.
Proof. by destruct s. Qed.

Lemma dec_enc_cc c : dec_cc (enc_cc c) = Some (norm_cc c).
Proof. destruct c as [t [m|] [e|]]; reflexivity. Qed.

Lemma dec_enc_type t : dec_type (enc_type t) = Some (norm_type t).
Proof.
  destruct t as [|a|e n r c]; [done|done|].
  cbn [enc_type dec_type]. cbn -[dec_cc enc_cc]. by rewrite dec_enc_cc.
Qed.

Lemma dec_enc_strat s : dec_strat (enc_strat s) = Some (norm_strat s).
Proof. by destruct s. Qed.

Lemma dec_enc_retry r : dec_retry (enc_retry r) = Some (norm_retry r).
Proof. by destruct r as [n [m|] [d|d]]. Qed.

Lemma dec_enc_context c : dec_context (enc_context c) = Some (norm_ctx c).
Proof.
  destruct c as [id ty st re ca eq ra co cn rc].
  unfold enc_context, dec_context, mbind, option_bind. cbn [job_id jtype jstatus jretry created_at enqueue_at run_at
    complete_at cancel_at run_count].
  cbn -[dec_type enc_type dec_opt enc_opt enc_retry dec_retry enc_status dec_status Z.of_nat dec_nat].
  rewrite dec_enc_type, dec_enc_status.
  rewrite (dec_enc_opt enc_retry dec_retry norm_retry); [|done|apply dec_enc_retry].
  rewrite !dec_enc_num_opt.
  unfold dec_nat. rewrite (proj2 (Z.leb_le 0 (Z.of_nat rc))) by lia.
  rewrite Nat2Z.id. done.
Qed.

Lemma dec_enc_job {M} `{SerdeOk M} (j : job M) v :
  enc_job j = Some v → dec_job v = Some (norm_job j).
Proof.
  destruct j as [c d]. unfold enc_job. cbn [data ctx].
  destruct (ser d) as [dj|] eqn:E; [|done]. intros [= <-].
  cbn -[dec_context enc_context]. rewrite dec_enc_context. cbn.
  by rewrite (de_ser _ _ E).
Qed.

(** Without a round trip of the payload. *)
Lemma dec_enc_ctx {M} `{Serde M} (j j' : job M) v :
  enc_job j = Some v → dec_job v = Some j' → ctx j' = norm_ctx (ctx j).
Proof.
  destruct j as [c d]. unfold enc_job. cbn [data ctx].
  destruct (ser d) as [dj|]; [|done]. intros [= <-].
  cbn -[dec_context enc_context]. rewrite dec_enc_context. cbn.
  destruct (de dj); [|done]. by intros [= <-].
Qed.
Lemma dec_enc_data {M} `{Serde M} (j j' : job M) v :
  enc_job j = Some v → dec_job v = Some j' → (ser (data j) ≫= de) ≠ None.
Proof.
  destruct j as [c d]. unfold enc_job. cbn [data ctx].
  destruct (ser d) as [dj|]; [|done]. intros [= <-].
  cbn -[dec_context enc_context]. rewrite dec_enc_context. cbn. by destruct (de dj).
Qed.

Lemma enc_job_total {M} `{SerdeOk M} (j : job M) : is_Some (enc_job j).
Proof.
  unfold enc_job. destruct (ser_total (data j)) as [v ->]. by eexists.
Qed.

Lemma trunc_us_idem t : trunc_us (trunc_us t) = trunc_us t.
Proof. unfold trunc_us, to_us, of_us. by rewrite Z.div_mul. Qed.
Lemma trunc_us_bounds t : trunc_us t <= t < trunc_us t + 1000.
Proof. unfold trunc_us, to_us, of_us. pose proof (Z.div_mod t 1000). pose proof (Z.mod_pos_bound t 1000). lia. Qed.
Lemma trunc_us_mono s t : s <= t → trunc_us s <= trunc_us t.
Proof. unfold trunc_us, to_us, of_us. intros. pose proof (Z.div_le_mono s t 1000). lia. Qed.
Lemma round_us_idem d : round_us (round_us d) = round_us d.
Proof.
  assert (∀ z, 0 ≤ z → round_us (z * 1000) = z * 1000) as HP.
  { intros z Hz. unfold round_us, dur_to_us. rewrite (proj2 (Z.leb_le 0 (z*1000))) by lia.
    rewrite Z.div_add_l by lia. change (500/1000) with 0. lia. }
  assert (∀ z, z < 0 → round_us (z * 1000) = z * 1000) as HN.
  { intros z Hz. unfold round_us, dur_to_us. rewrite (proj2 (Z.leb_gt 0 (z*1000))) by lia.
    replace (- (z*1000) + 500) with ((-z) * 1000 + 500) by lia.
    rewrite Z.div_add_l by lia. change (500/1000) with 0. lia. }
  unfold round_us at 2 3. destruct (Z_lt_le_dec (dur_to_us d) 0); [apply HN|apply HP]; lia.
Qed.

Lemma norm_type_idem t : norm_type (norm_type t) = norm_type t.
Proof.
  destruct t as [|a|e n r [tk m e']]; simpl; rewrite ?trunc_us_idem; try done.
  unfold norm_cc; simpl. destruct e'; simpl; by rewrite ?trunc_us_idem.
Qed.
Lemma norm_retry_idem r : norm_retry (norm_retry r) = norm_retry r.
Proof. destruct r as [n m [d|d]]; unfold norm_retry; simpl; by rewrite round_us_idem. Qed.
Lemma norm_job_idem {M} (j : job M) : norm_job (norm_job j) = norm_job j.
Proof.
  destruct j as [[id ty st re ca eq ra co cn rc] d]. unfold norm_job, norm_ctx; simpl.
  rewrite norm_type_idem. destruct re as [r|]; simpl; by rewrite ?norm_retry_idem.
Qed.
