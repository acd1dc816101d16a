(** The expansion of #[job]; conversion of milliseconds. *)
From Verif Require Import Registry SpecMacro.

Definition plain (x : string) (ty : nat) : fn_arg := Typed (PIdent false false x false) ty.
Definition plain_tokens (p : string * nat) : list token := [TIdent p.1; TPunct ":"; TType p.2].

Lemma commas_cons x l : l ≠ [] → commas (x :: l) = x ++ TPunct "," :: commas l.
Proof. by destruct l. Qed.
Lemma commas_snoc l x : l ≠ [] → commas (l ++ [x]) = commas l ++ TPunct "," :: x.
Proof.
  induction l as [|y l IH]; [done|]. intros _. destruct l as [|z l]; [done|].
  change ((y :: z :: l) ++ [x]) with (y :: (z :: l) ++ [x]).
  rewrite commas_cons by done. rewrite IH by done. rewrite (commas_cons y (z :: l)) by done.
  by rewrite <- app_assoc.
Qed.

(** *** Parsing plain parameters *)
Lemma parse_step n x ty rest :
  parse_params_n (S n) (plain_tokens (x, ty) ++ rest) =
  match rest with
  | [] => Some [(PIdent false false x false, ty)]
  | TPunct d :: rest' => if String.eqb d "," then cons (PIdent false false x false, ty) <$> parse_params_n n rest' else None
  | _ => None
  end.
Proof. done. Qed.
Definition of_names (ps : list (string * nat)) : list (pattern * nat) := map (λ p, (PIdent false false p.1 false, p.2)) ps.
Lemma parse_plain ps n :
  (length ps < n)%nat → parse_params_n n (commas (map plain_tokens ps)) = Some (of_names ps).
Proof.
  revert n. induction ps as [|[x ty] ps IH]; intros n Hn; (destruct n as [|n]; [cbn in Hn; lia|]); [done|].
  cbn [map]. destruct ps as [|p ps].
  - cbn [map commas]. rewrite <- (app_nil_r (plain_tokens (x, ty))). by rewrite parse_step.
  - rewrite commas_cons by done. rewrite parse_step. cbn [String.eqb Ascii.eqb Bool.eqb].
    rewrite IH by (cbn in *; lia). done.
Qed.
Lemma commas_length ps : (length ps ≤ length (commas (map plain_tokens ps)))%nat.
Proof.
  induction ps as [|p ps IH]; [done|]. destruct ps as [|q ps]; [cbn; lia|].
  cbn [map]. rewrite commas_cons by done. rewrite app_length. cbn [length plain_tokens] in *. cbn [map] in IH. lia.
Qed.
Lemma parse_params_plain ps : parse_params (commas (map plain_tokens ps)) = Some (of_names ps).
Proof. apply parse_plain. pose proof (commas_length ps). lia. Qed.
(** Two commas in a row, a comma at the start. *)
Lemma parse_double ps n l : parse_params_n n (commas (map plain_tokens ps) ++ match ps with [] => [] | _ => [TPunct ","] end ++ TPunct "," :: l) = None.
Proof.
  revert n. induction ps as [|[x ty] ps IH]; intros n; (destruct n as [|n]; [done|]); [done|].
  cbn [map]. destruct ps as [|p ps].
  - cbn [map commas app]. rewrite parse_step. cbn [String.eqb Ascii.eqb Bool.eqb].
    destruct n as [|n]; done.
  - rewrite commas_cons by done. specialize (IH n).
    rewrite <- app_assoc. rewrite parse_step. cbn [app] in *. cbn [String.eqb Ascii.eqb Bool.eqb]. by rewrite IH.
Qed.

(** *** Parsing the other parts *)
Lemma names_plain xs : parse_names (commas (map (λ x, [TIdent x]) xs)) = Some xs.
Proof.
  induction xs as [|x xs IH]; [done|]. cbn [map]. destruct xs as [|y xs]; [done|].
  rewrite commas_cons by done. cbn [map] in IH. 
  cbn [app]. set (l := commas _) in *. cbn [parse_names]. cbn [String.eqb Ascii.eqb Bool.eqb]. by rewrite IH.
Qed.
Lemma fields_plain ps : parse_fields (commas (map (λ p, TKw "pub" :: plain_tokens p) ps)) = Some ps.
Proof.
  induction ps as [|[x ty] ps IH]; [done|]. cbn [map]. destruct ps as [|q ps]; [done|].
  rewrite commas_cons by done. cbn [map] in IH.
  set (l := commas _) in *. cbn [app plain_tokens fst snd parse_fields String.eqb Ascii.eqb Bool.eqb andb]. by rewrite IH.
Qed.
Definition clone_tokens (x : string) : list token :=
  [TKw "self"; TPunct "."; TIdent x; TPunct "."; TIdent "clone"; TParens].
Lemma clones_plain xs : parse_clones (commas (map clone_tokens xs)) = Some xs.
Proof.
  induction xs as [|x xs IH]; [done|]. cbn [map]. destruct xs as [|y xs]; [done|].
  rewrite commas_cons by done. cbn [map] in IH.
  set (l := commas _) in *. cbn [app clone_tokens parse_clones String.eqb Ascii.eqb Bool.eqb andb]. by rewrite IH.
Qed.
(** The converse: what parses is plain. *)
Definition is_plain (p : pattern) : Prop := ∃ x, p = PIdent false false x false.
Lemma clones_only_plain (ks : list (pattern * nat)) xs :
  Forall (λ k, k.1 ≠ POther) ks →
  parse_clones (commas (map (λ '(p, _), [TKw "self"; TPunct "."] ++ pat_tokens p ++ [TPunct "."; TIdent "clone"; TParens]) ks)) = Some xs →
  map fst ks = map (λ x, PIdent false false x false) xs.
Proof.
  intros Hk. revert xs. induction Hk as [|[p ty] ks Hp Hk IH]; intros xs E.
  - by injection E as <-.
  - cbn [map] in E. destruct p as [r m x sb|]; [|done].
    destruct ks as [|k ks].
    + cbn [map commas] in E. destruct r; [done|]. destruct m; [done|]. destruct sb; [done|]. cbn in E. by injection E as <-.
    + rewrite commas_cons in E by done. set (l := commas _) in *.
      destruct r; [done|]. destruct m; [done|]. destruct sb; [done|].
      cbn [pat_tokens app parse_clones String.eqb Ascii.eqb Bool.eqb andb] in E.
      destruct (parse_clones l) as [ys|] eqn:El; [|done]. injection E as <-.
      specialize (IH ys eq_refl). cbn [map fst] in *. by rewrite IH.
Qed.

(** *** Supported functions *)
Section supported.
  Context (f : fn_sig) (ps : list (string * nat)).
  Context (Ha : f_args f = map (λ p, plain p.1 p.2) ps).
  Lemma kept_plain : kept f = of_names ps.
  Proof. unfold kept. rewrite Ha. clear Ha. induction ps as [|p qs IH]; [done|]. cbn [map omap list_omap plain]. by rewrite IH. Qed.
  Lemma inputs_plain : commas (map arg_tokens (f_args f)) = commas (map plain_tokens ps).
  Proof. rewrite Ha. f_equal. rewrite map_map. done. Qed.
  Lemma e_fields_plain : parse_fields (e_fields (expand f)) = Some ps.
  Proof.
    cbn [expand e_fields]. unfold input_fields. rewrite kept_plain. unfold of_names. rewrite map_map. apply fields_plain.
  Qed.
  Lemma e_call_plain : parse_clones (e_call (expand f)) = Some (map fst ps).
  Proof.
    cbn [expand e_call]. unfold struct_as_args. rewrite kept_plain. unfold of_names. rewrite map_map.
    rewrite <- clones_plain. f_equal. f_equal. by rewrite map_map.
  Qed.
  Lemma e_names_plain : parse_names (input_names f) = Some (map fst ps).
  Proof.
    unfold input_names. rewrite kept_plain. unfold of_names. rewrite map_map.
    rewrite <- names_plain. f_equal. f_equal. by rewrite map_map.
  Qed.
  Context (Hne : ps ≠ []) (Ht : f_trailing f = false).
  Lemma e_inputs_plain : fn_inputs f = commas (map plain_tokens ps).
  Proof. unfold fn_inputs. by rewrite Ht, inputs_plain, app_nil_r. Qed.
  Lemma e_ctx_plain : e_ctx_params (expand f) = commas (map plain_tokens (ps ++ [("context", context_type)])).
  Proof.
    cbn [expand e_ctx_params]. rewrite e_inputs_plain, map_app. cbn [map]. rewrite commas_snoc; [done|]. by destruct ps.
  Qed.
End supported.

Lemma binders_of_names ps : binders (of_names ps) = Some (map fst ps).
Proof. unfold binders, of_names. induction ps as [|p ps IH]; [done|]. cbn [map mapM]. cbn. rewrite IH. done. Qed.
Lemma idents_of_names ps :
  omap (λ p : pattern * nat, match p.1 with PIdent _ _ x _ => Some x | POther => None end) (of_names ps) = map fst ps.
Proof. induction ps as [|p ps IH]; [done|]. cbn. f_equal. apply IH. Qed.
Lemma bind_of_names {V} ps (vs : list V) :
  length ps = length vs → NoDup (map fst ps) → bind_params (of_names ps) vs = Some (zip (map fst ps) vs).
Proof.
  intros Hl Hn. unfold bind_params. rewrite binders_of_names. cbn. rewrite decide_True; [done|]. by rewrite map_length.
Qed.
Lemma var_app {V} (e1 e2 : list (string * V)) x v : var e1 x = Some v → var (e1 ++ e2) x = Some v.
Proof. induction e1 as [|[y w] e1 IH]; [done|]. cbn. by destruct (String.eqb x y). Qed.
Lemma vars_zip {V} xs (vs : list V) e2 :
  length xs = length vs → NoDup xs → mapM (var (zip xs vs ++ e2)) xs = Some vs.
Proof.
  intros Hl Hn. apply mapM_Some. apply Forall2_same_length_lookup_2; [done|].
  intros i x v Ex Ev. apply var_app. revert xs vs Hl Hn i Ex Ev. clear.
  induction xs as [|y xs IH]; intros [|w vs] Hl Hn [|i] Ex Ev; try done.
  - cbn in *. simplify_eq. by rewrite String.eqb_refl.
  - cbn in *. apply list.NoDup_cons in Hn as [Hy Hn]. destruct (String.eqb_spec x y) as [-> |].
    + by apply elem_of_list_lookup_2 in Ex.
    + eapply IH; [|done|done|done]. lia.
Qed.
Lemma pairs_zip {V} xs (vs : list V) :
  length xs = length vs → NoDup xs → mapM (λ x, v ← var (zip xs vs) x; Some (x, v)) xs = Some (zip xs vs).
Proof.
  intros Hl Hn. pose proof (vars_zip xs vs [] Hl Hn) as H. rewrite app_nil_r in H.
  apply mapM_Some in H. apply mapM_Some. apply Forall2_same_length_lookup_2; [rewrite zip_with_length; lia|].
  intros i x p Ex Ep. apply lookup_zip_with_Some in Ep as (x' & v & -> & Ex' & Ev). simplify_eq.
  pose proof (Forall2_lookup_lr _ _ _ _ _ _ H Ex Ev) as E. cbn in E. by rewrite E.
Qed.

Lemma supported_params f : supported f →
  ∃ ps, f_args f = map (λ p, plain p.1 p.2) ps ∧ ps ≠ [] ∧ f_trailing f = false ∧ NoDup (map fst ps) ∧ "context" ∉ map fst ps.
Proof.
  intros (Hne & Ht & xs & Hxs & Hn & Hc).
  assert (∃ ps, f_args f = map (λ p, plain p.1 p.2) ps ∧ map fst ps = xs) as (ps & E1 & E2).
  { clear -Hxs. induction Hxs as [|a x l xs [ty ->] Hxs (ps & E1 & E2)]; [by exists []|].
    exists ((x, ty) :: ps). cbn. by rewrite E1, E2. }
  exists ps. split; [done|]. split; [|by subst]. intros ->. by apply Hne.
Qed.
Lemma supported_faithful f : supported f → ∀ {V} (vs : list V) ctx, length vs = length (f_args f) → faithful (expand f) vs ctx.
Proof.
  intros (ps & Ha & Hne & Ht & Hn & Hc)%supported_params V vs ctx Hl.
  rewrite Ha, map_length in Hl.
  assert (∀ params extra xs, parse_params params = Some (of_names (ps ++ xs)) → length xs = length extra →
    NoDup (map fst (ps ++ xs)) →
    ∃ st, make_struct (expand f) params extra vs = Some st ∧ call_args (expand f) st = Some vs) as Hgen.
  { intros params extra xs Hp Hx Hnd. exists (zip (map fst ps) vs).
    unfold make_struct. rewrite Hp. cbn [mbind option_bind].
    rewrite bind_of_names by (try done; rewrite !app_length; lia). cbn [mbind option_bind].
    change (e_new_args (expand f)) with (input_names f). rewrite (e_names_plain f ps Ha). cbn [mbind option_bind].
    assert (mapM (var (zip (map fst (ps ++ xs)) (vs ++ extra))) (map fst ps) = Some vs) as ->.
    { rewrite map_app, zip_with_app by (rewrite map_length; lia). apply vars_zip; [rewrite map_length; lia|done]. }
    cbn [mbind option_bind]. change (e_new_params (expand f)) with (fn_inputs f).
    rewrite (e_inputs_plain f ps Ha Ht), parse_params_plain. cbn [mbind option_bind].
    rewrite bind_of_names by (done || lia). cbn [mbind option_bind].
    rewrite (e_fields_plain f ps Ha). cbn [mbind option_bind].
    change (e_literal (expand f)) with (input_names f). rewrite (e_names_plain f ps Ha). cbn [mbind option_bind].
    rewrite decide_True by done. split; [apply pairs_zip; [rewrite map_length; lia|done]|].
    unfold call_args. rewrite (e_call_plain f ps Ha). cbn [mbind option_bind].
    rewrite <- (app_nil_r (zip _ _)). apply vars_zip; [rewrite map_length; lia|done]. }
  split.
  - apply (Hgen _ _ []); [|done|by rewrite app_nil_r]. change (e_run_params (expand f)) with (fn_inputs f).
    rewrite app_nil_r, (e_inputs_plain f ps Ha Ht). apply parse_params_plain.
  - apply (Hgen _ _ [("context", context_type)]); [|done|].
    + rewrite (e_ctx_plain f ps Ha Hne Ht). apply parse_params_plain.
    + rewrite map_app. apply NoDup_app. split; [done|]. split; [|apply NoDup_singleton].
      by intros x Hx ->%elem_of_list_singleton.
Qed.
Lemma supported_valid f : supported f → grammatical (expand f) ∧ arity_ok f (expand f).
Proof.
  intros (ps & Ha & Hne & Ht & Hn & Hc)%supported_params. split.
  - split; [rewrite (e_fields_plain f ps Ha); by eexists|]. split; [rewrite (e_call_plain f ps Ha); by eexists|].
    split; [change (e_literal (expand f)) with (input_names f); rewrite (e_names_plain f ps Ha); by eexists|].
    split; [change (e_new_args (expand f)) with (input_names f); rewrite (e_names_plain f ps Ha); by eexists|].
    assert (distinct_binders (fn_inputs f)) as Hd.
    { exists (of_names ps). rewrite (e_inputs_plain f ps Ha Ht), parse_params_plain, idents_of_names. done. }
    split; [exact Hd|]. split; [exact Hd|].
    exists (of_names (ps ++ [("context", context_type)])). rewrite (e_ctx_plain f ps Ha Hne Ht), parse_params_plain, idents_of_names.
    split; [done|]. rewrite map_app. apply NoDup_app. split; [done|]. split; [|apply NoDup_singleton].
    by intros x Hx ->%elem_of_list_singleton.
  - unfold arity_ok. rewrite (e_call_plain f ps Ha). cbn. by rewrite Ha, !map_length.
Qed.
Lemma valid_supported f : grammatical (expand f) → arity_ok f (expand f) → supported f.
Proof.
  intros (_ & [xs Hxs] & _ & _ & _ & _ & (cps & Hcp & Hnd)) Har.
  unfold arity_ok in Har. rewrite Hxs in Har. cbn in Har. injection Har as Har.
  cbn [expand e_call] in Hxs. unfold struct_as_args in Hxs.
  assert (Forall (λ k, k.1 ≠ POther) (kept f)) as Hk.
  { apply list.Forall_forall. intros [p ty] Hin. apply elem_of_list_omap in Hin as ([|[] ty'] & _ & [= <- <-]); done. }
  pose proof (clones_only_plain _ _ Hk Hxs) as Hfst.
  assert (length (kept f) = length (f_args f)) as Hlen.
  { rewrite <- Har, <- (map_length fst), Hfst. by rewrite map_length. }
  assert (∃ ps, f_args f = map (λ p, plain p.1 p.2) ps ∧ map fst ps = xs) as (ps & Ha & Hps).
  { clear -Hfst Hlen. unfold kept in *. revert xs Hfst Hlen. induction (f_args f) as [|a l IH]; intros xs Hfst Hlen.
    - exists []. split; [done|]. by destruct xs.
    - assert (length (omap (λ a, match a with Typed (PIdent r m x s) ty => Some (PIdent r m x s, ty) | _ => None end) l) ≤ length l)%nat as Hle.
      { clear. induction l as [|[|[] ty] l IH]; cbn in *; lia. }
      destruct a as [|[r m x sb|] ty]; cbn in Hlen, Hfst; [unfold omap in *; lia| |unfold omap in *; lia].
      destruct xs as [|y xs]; [done|]. injection Hfst as -> -> -> -> Hfst. destruct (IH xs Hfst) as (ps & E1 & E2); [unfold omap in *; lia|].
      exists ((y, ty) :: ps). cbn. by rewrite E1, E2. }
  assert (ps ≠ [] ∧ f_trailing f = false) as [Hne Ht].
  { cbn [expand e_ctx_params] in Hcp. unfold fn_inputs in Hcp. rewrite (inputs_plain f ps Ha) in Hcp.
    unfold parse_params in Hcp. rewrite <- app_assoc in Hcp.
    destruct ps as [|p ps].
    - cbn [map commas app] in Hcp. replace (f_trailing f && _) with false in Hcp; [done|]. rewrite Ha. cbn. by destruct (f_trailing f).
    - split; [done|]. destruct (f_trailing f) eqn:Et; [|done].
      replace (true && _) with true in Hcp by (by rewrite Ha). 
      pose proof (parse_double (p :: ps) (S (length (commas (map plain_tokens (p :: ps)) ++ [TPunct ","] ++
        [TPunct ","; TIdent "context"; TPunct ":"; TType context_type])))
        [TIdent "context"; TPunct ":"; TType context_type]) as Hd.
      rewrite Hd in Hcp. done. }
  rewrite (e_ctx_plain f ps Ha Hne Ht), parse_params_plain in Hcp. injection Hcp as <-.
  rewrite idents_of_names, map_app in Hnd. apply NoDup_app in Hnd as (Hn & Hc & _).
  split; [|split; [done|]].
  - intros E. rewrite Ha in E. by destruct ps.
  - exists (map fst ps). split; [|split; [done|]].
    + rewrite Ha. clear. induction ps as [|p ps IH]; [constructor|]. constructor; [by exists p.2|done].
    + intros Hin. apply (Hc _ Hin). by apply elem_of_list_singleton.
Qed.

(** *** Milliseconds *)
Lemma ms_exact prof ms :
  in_i64 (ms * 1000000) = true →
  get_ms_as_datetime prof ms = Some (ms * 1000000).
Proof. unfold get_ms_as_datetime. by intros ->. Qed.
Lemma ms_wrong ms t :
  in_i64 (ms * 1000000) = false → get_ms_as_datetime Release ms = Some t → t / 1000000 ≠ ms.
Proof.
  unfold get_ms_as_datetime, in_i64, i64_wrap, i64_min, i64_max. intros Hr. rewrite Hr. intros [= <-].
  set (x := ms * 1000000) in *. pose proof (Z.mod_pos_bound (x + 2 ^ 63) (2 ^ 64) ltac:(lia)) as Hb.
  pose proof (Z.div_mod (x + 2 ^ 63) (2 ^ 64) ltac:(lia)) as Hd. set (m := (x + 2 ^ 63) mod 2 ^ 64) in *.
  set (q := (x + 2 ^ 63) / 2 ^ 64) in *. intros E.
  assert (x <= m - 2 ^ 63 <= x + 999999) as Hx.
  { unfold x. pose proof (Z.div_mod (m - 2 ^ 63) 1000000 ltac:(lia)) as D. pose proof (Z.mod_pos_bound (m - 2 ^ 63) 1000000 ltac:(lia)). lia. }
  assert (q = 0) by lia. assert (m = x + 2 ^ 63) by lia.
  apply andb_false_iff in Hr as [Hr%Z.leb_gt|Hr%Z.leb_gt]; lia.
Qed.
Lemma in_i64_spec z : in_i64 z = true ↔ - 2 ^ 63 ≤ z ≤ 2 ^ 63 - 1.
Proof. unfold in_i64, i64_min, i64_max. rewrite andb_true_iff, !Z.leb_le. done. Qed.
Lemma ms_partial prof ms :
  - 2 ^ 63 ≤ ms * 1000000 ≤ 2 ^ 63 - 1 →
  ∃ t, get_ms_as_datetime prof ms = Some t ∧ t / 1000000 = ms ∧ t mod 1000000 = 0.
Proof.
  intros H%in_i64_spec. exists (ms * 1000000). split; [by apply ms_exact|]. split.
  - apply Z.div_mul. lia.
  - apply Z.mod_mul. lia.
Qed.
Lemma ms_refuted ms :
  ¬ (- 2 ^ 63 ≤ ms * 1000000 ≤ 2 ^ 63 - 1) →
  get_ms_as_datetime Debug ms = None ∧
  ∃ t, get_ms_as_datetime Release ms = Some t ∧ t / 1000000 ≠ ms.
Proof.
  rewrite <- in_i64_spec. intros H%not_true_is_false. split.
  - unfold get_ms_as_datetime. by rewrite H.
  - exists (i64_wrap (ms * 1000000)). assert (get_ms_as_datetime Release ms = Some (i64_wrap (ms * 1000000))) as E.
    { unfold get_ms_as_datetime. by rewrite H. }
    split; [done|]. by eapply ms_wrong.
Qed.

(** *** Queue names *)
Lemma same_name_fails pascal f g :
  f_name f = f_name g →
  let s := reg_run reg_init
    [RRun 0 (queue_name_of pascal f); RStep 0; RStep 0; RHandle; RStep 0;
     RRun 1 (queue_name_of pascal g); RStep 1; RStep 1; RHandle] in
  map snd (calls s) = [CSent 0; CFailed]%nat ∧ aj_alive s = false.
Proof.
  intros E. assert (queue_name_of pascal f = queue_name_of pascal g) as -> by (unfold queue_name_of; by rewrite E).
  generalize (queue_name_of pascal g). intros n. cbv zeta. unfold reg_run.
  change ([RRun 0 n; RStep 0; RStep 0; RHandle; RStep 0; RRun 1 n; RStep 1; RStep 1; RHandle])
    with ([RRun 0 n; RStep 0; RStep 0] ++ [RHandle] ++ [RStep 0; RRun 1 n; RStep 1; RStep 1] ++ [RHandle]).
  rewrite !fold_left_app.
  assert (fold_left reg_step [RRun 0 n; RStep 0; RStep 0] reg_init =
    Reg ∅ ∅ [] true [MInit 0] [(Call 0 n false, CWait)]) as -> by done.
  set (s1 := Reg {[0%nat := 0%nat]} {[n := 0%nat]} [(0%nat, n)] true [] [(Call 0 n false, CGot 0)]).
  assert (fold_left reg_step [RHandle] (Reg ∅ ∅ [] true [MInit 0] [(Call 0 n false, CWait)]) = s1) as ->.
  { cbn [fold_left reg_step aj_alive inbox calls lookup list_lookup]. unfold register.
    cbn [by_name by_type c_name c_type]. by rewrite !lookup_empty. }
  assert (fold_left reg_step [RStep 0; RRun 1 n; RStep 1; RStep 1] s1 =
    Reg {[0%nat := 0%nat]} {[n := 0%nat]} [(0%nat, n)] true [MInit 1]
      [(Call 0 n false, CSent 0); (Call 1 n false, CWait)]) as -> by done.
  cbn [fold_left reg_step aj_alive inbox calls lookup list_lookup]. unfold register.
  cbn [by_name by_type c_name c_type]. by rewrite lookup_singleton.
Qed.
