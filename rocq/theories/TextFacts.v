(** Proofs about JSON text. *)
From Coq Require Import Ascii DecimalString DecimalZ DecimalPos DecimalFacts.
From Verif Require Import Spec JsonFacts SpecText WorldFacts SpecValue ValueProps Demo.

(** ** Strings and numbers *)

Lemma chars_string s : string_of_list_ascii (chars s) = s.
Proof. apply string_of_list_ascii_of_string. Qed.
Lemma string_chars l : chars (string_of_list_ascii l) = l.
Proof. apply list_ascii_of_string_of_list_ascii. Qed.

Lemma read_escape c s :
  read_str (escape c ++ s) = match read_str s with Some (r, t) => Some (String c r, t) | None => None end.
Proof. destruct c as [[] [] [] [] [] [] [] []]; reflexivity. Qed.
Lemma read_write_str s t : read_str (concat (map escape (chars s)) ++ quote :: t) = Some (s, t).
Proof.
  induction s as [|c s IH]; [done|]. cbn [chars list_ascii_of_string map concat]. rewrite <- app_assoc, read_escape.
  change (list_ascii_of_string s) with (chars s). by rewrite IH.
Qed.

Definition stop (s : text) : Prop := match s with c :: _ => num_char c = false | [] => True end.

Lemma span_num_app a s : Forall (λ c, num_char c = true) a → stop s → span_num (a ++ s) = (a, s).
Proof.
  induction 1 as [|c a Hc Ha IH]; intros Hs.
  - destruct s as [|c s]; [done|]. cbn in *. by rewrite Hs.
  - cbn. rewrite Hc, IH; done.
Qed.
Lemma uint_chars u : Forall (λ c, num_char c = true) (chars (NilEmpty.string_of_uint u)).
Proof. induction u; cbn; constructor; done. Qed.
Lemma uint_chars_zero u : Forall (λ c, num_char c = true) (chars (NilZero.string_of_uint u)).
Proof. destruct u; try (apply (uint_chars)); [repeat constructor|..]; cbn; constructor; try done; apply uint_chars. Qed.
Lemma num_chars z : Forall (λ c, num_char c = true) (write_num z).
Proof.
  unfold write_num. destruct (Z.to_int z) as [u|u]; cbn; [apply uint_chars_zero|].
  constructor; [done|apply uint_chars_zero].
Qed.
Lemma num_nonempty z : write_num z ≠ [].
Proof. unfold write_num. destruct (Z.to_int z) as [u|u]; destruct u; done. Qed.
Lemma to_int_nonnil z : Z.to_int z ≠ Decimal.Pos Decimal.Nil ∧ Z.to_int z ≠ Decimal.Neg Decimal.Nil.
Proof.
  destruct z as [|p|p]; cbn; [done| |]; split; try done; intros [= H]; by apply (DecimalPos.Unsigned.to_uint_nonnil p).
Qed.
Lemma read_write_num z s : stop s → read_num (write_num z ++ s) = Some (z, s).
Proof.
  intros Hs. unfold read_num. rewrite (span_num_app _ _ (num_chars z) Hs).
  unfold write_num. rewrite chars_string. destruct (to_int_nonnil z) as [H1 H2].
  rewrite NilZero.isi. 2,3: done. rewrite DecimalZ.of_to. by rewrite bool_decide_true.
Qed.

Lemma num_head c : num_char c = true →
  ((c =? quote)%char = false ∧ (c =? "[")%char = false ∧ (c =? "{")%char = false ∧ (c =? "n")%char = false ∧
   (c =? "t")%char = false ∧ (c =? "f")%char = false ∧ (c =? "]")%char = false ∧ (c =? "}")%char = false).
Proof. destruct c as [[] [] [] [] [] [] [] []]; try done; repeat split; reflexivity. Qed.

(** ** Values *)

Lemma json_ind' (P : json → Prop) :
  P JNull → (∀ b, P (JBool b)) → (∀ z, P (JNum z)) → (∀ s, P (JStr s)) →
  (∀ l, Forall P l → P (JArr l)) → (∀ l, Forall (λ p, P (snd p)) l → P (JObj l)) → ∀ v, P v.
Proof.
  intros Hn Hb Hz Hs Ha Ho. fix F 1. intros [| b | z | s | l | l].
  - apply Hn.
  - apply Hb.
  - apply Hz.
  - apply Hs.
  - apply Ha. induction l as [|v l IH]; constructor; [apply F|apply IH].
  - apply Ho. induction l as [|[k v] l IH]; constructor; [apply F|apply IH].
Qed.

Definition member (p : string * json) : text := write_str (fst p) ++ ":"%char :: write (snd p).
Lemma write_obj l : write (JObj l) = "{"%char :: comma_list (map member l) ++ ["}"%char].
Proof. cbn. do 3 f_equal. apply map_ext. by intros [k v]. Qed.
Definition depths (l : list json) : nat := foldr Nat.max 0%nat (map jdepth l).
Definition mdepths (l : list (string * json)) : nat := foldr Nat.max 0%nat (map (jdepth ∘ snd) l).
Lemma jdepth_obj l : jdepth (JObj l) = S (mdepths l).
Proof. cbn. unfold mdepths. do 2 f_equal. apply map_ext. by intros [k v]. Qed.

(** Where a value starts. *)
Lemma write_head v : ∃ c s, write v = c :: s ∧ (c =? "]")%char = false.
Proof.
  destruct v as [| [] | z | s | l | l]; try (eexists _, _; split; [reflexivity|done]).
  cbn. destruct (write_num z) as [|c s] eqn:E; [by apply num_nonempty in E|].
  pose proof (num_chars z) as H. rewrite E in H. inversion H; subst. eexists _, _. split; [done|]. by apply num_head.
Qed.
Lemma write_length v : (0 < length (write v))%nat.
Proof. destruct (write_head v) as (c & s & -> & _). cbn. lia. Qed.

Definition reads_back (v : json) : Prop := ∀ f d s, (2 * length (write v) ≤ f)%nat → stop s →
  read_value f d (write v ++ s) = if (jdepth v <=? d)%nat then Some (v, s) else None.

Lemma comma_cons x y l : comma_list (x :: y :: l) = x ++ ","%char :: comma_list (y :: l).
Proof. done. Qed.

Lemma elems_back v l f d s :
  Forall reads_back (v :: l) → (2 * length (comma_list (map write (v :: l))) < f)%nat →
  read_elems f d (comma_list (map write (v :: l)) ++ "]"%char :: s) =
  if (depths (v :: l) <=? d)%nat then Some (v :: l, s) else None.
Proof.
  revert v f s. induction l as [|v' l IH]; intros v f s Hall Hf.
  - inversion Hall as [|? ? Hv _]; subst. cbn [map comma_list] in *. destruct f as [|f]; [lia|].
    cbn [read_elems]. rewrite Hv; [|lia|done].
    unfold depths. cbn [map foldr]. rewrite Nat.max_0_r. by destruct (jdepth v <=? d)%nat.
  - inversion Hall as [|? ? Hv Hl]; subst. cbn [map] in *. rewrite comma_cons in *.
    rewrite app_length in Hf. cbn [length] in Hf. destruct f as [|f]; [lia|].
    cbn [read_elems]. rewrite <- app_assoc, <- app_comm_cons. rewrite Hv; [|lia|done].
    pose proof (write_length v).
    change (depths (v :: v' :: l)) with (Nat.max (jdepth v) (depths (v' :: l))).
    destruct (Nat.leb_spec (jdepth v) d) as [H1|H1].
    + rewrite Ascii.eqb_refl. rewrite (IH v' f s Hl) by lia.
      destruct (Nat.leb_spec (depths (v' :: l)) d); destruct (Nat.leb_spec (Nat.max (jdepth v) (depths (v' :: l))) d); try lia; done.
    + destruct (Nat.leb_spec (Nat.max (jdepth v) (depths (v' :: l))) d); [lia|done].
Qed.

Lemma members_back p l f d s :
  Forall (λ p, reads_back (snd p)) (p :: l) → (2 * length (comma_list (map member (p :: l))) < f)%nat →
  read_members f d (comma_list (map member (p :: l)) ++ "}"%char :: s) =
  if (mdepths (p :: l) <=? d)%nat then Some (p :: l, s) else None.
Proof.
  revert p f s. induction l as [|p' l IH]; intros [k v] f s Hall Hf.
  - inversion Hall as [|? ? Hv _]; subst. cbn [map comma_list snd] in *. destruct f as [|f]; [lia|].
    unfold member in *. cbn [fst snd] in *. unfold write_str in *. rewrite !app_length in Hf. cbn [length] in Hf.
    rewrite <- app_assoc. cbn [app read_members]. rewrite Ascii.eqb_refl.
    rewrite <- app_assoc. cbn [app]. rewrite read_write_str. rewrite Ascii.eqb_refl. rewrite Hv; [|lia|done].
    unfold mdepths. cbn [map foldr compose snd]. rewrite Nat.max_0_r. by destruct (jdepth v <=? d)%nat.
  - inversion Hall as [|? ? Hv Hl]; subst. cbn [map snd] in *. rewrite comma_cons in *.
    rewrite app_length in Hf. cbn [length] in Hf. destruct f as [|f]; [lia|].
    assert (length (write v) ≤ length (member (k, v)))%nat by (unfold member; rewrite app_length; cbn; lia).
    unfold member at 1. cbn [fst snd]. unfold write_str at 1.
    rewrite <- !app_assoc. cbn [app read_members]. rewrite Ascii.eqb_refl.
    rewrite <- !app_assoc. cbn [app]. rewrite read_write_str. rewrite Ascii.eqb_refl. rewrite <- ?app_assoc, <- ?app_comm_cons.
    rewrite Hv; [|lia|done].
    change (mdepths ((k, v) :: p' :: l)) with (Nat.max (jdepth v) (mdepths (p' :: l))).
    destruct (Nat.leb_spec (jdepth v) d) as [H1|H1].
    + rewrite Ascii.eqb_refl. rewrite (IH p' f s Hl) by lia.
      destruct (Nat.leb_spec (mdepths (p' :: l)) d); destruct (Nat.leb_spec (Nat.max (jdepth v) (mdepths (p' :: l))) d); try lia; done.
    + destruct (Nat.leb_spec (Nat.max (jdepth v) (mdepths (p' :: l))) d); [lia|done].
Qed.

Lemma take_chars w s : take (String.length w) (chars w ++ s) = chars w ∧ drop (String.length w) (chars w ++ s) = s.
Proof. induction w as [|c w [IH1 IH2]]; cbn; [by rewrite take_0|]. by split; [f_equal|]. Qed.
Lemma read_word_back w v s : read_word w v (chars w ++ s) = Some (v, s).
Proof.
  unfold read_word. destruct (take_chars w s) as [H1 H2]. rewrite H1, H2. by rewrite bool_decide_true.
Qed.

Lemma all_read_back v : reads_back v.
Proof.
  induction v as [| b | z | t | l IH | l IH] using json_ind'; intros f d s Hf Hs.
  - destruct f as [|f]; [cbn in Hf; lia|]. apply (read_word_back "null").
  - destruct b; (destruct f as [|f]; [cbn in Hf; lia|]); [apply (read_word_back "true")|apply (read_word_back "false")].
  - destruct f as [|f]; [cbn [write] in Hf; pose proof (write_length (JNum z)); cbn [write] in *; lia|].
    pose proof (read_write_num z s Hs) as Hn. pose proof (num_chars z) as Hc. cbn [write].
    destruct (write_num z) as [|c r] eqn:E; [by apply num_nonempty in E|].
    inversion Hc as [|? ? H1 _]; subst. destruct (num_head c H1) as (Ha & Hb & Hd & He & Hg & Hh & _).
    cbn [app read_value] in *. rewrite Ha, Hb, Hd, He, Hg, Hh, Hn. done.
  - destruct f as [|f]; [cbn in Hf; lia|]. cbn [write]. unfold write_str. cbn [app read_value].
    rewrite Ascii.eqb_refl, <- app_assoc. cbn [app]. by rewrite read_write_str.
  - destruct f as [|f]; [cbn in Hf; lia|]. cbn [write app read_value length] in *.
    rewrite app_length in Hf. cbn [length] in Hf.
    change (("[" =? quote)%char) with false. change (("[" =? "[")%char) with true. cbn match.
    rewrite <- app_assoc. cbn [app].
    destruct l as [|v l].
    + cbn. by destruct d.
    + destruct d as [|d]; [done|].
      assert (∃ c r, comma_list (map write (v :: l)) = c :: r ∧ (c =? "]")%char = false) as (c & r & Hc & Hn).
      { destruct (write_head v) as (c & r & Hc & Hn). destruct l; cbn [map comma_list]; rewrite Hc; eexists _, _; split; done. }
      pose proof (elems_back v l f d s IH) as He. rewrite Hc in *. cbn [app]. rewrite Hn.
      cbn [app] in He. rewrite He by lia.
      change (jdepth (JArr (v :: l))) with (S (depths (v :: l))). cbn [Nat.leb].
      by destruct (depths (v :: l) <=? d)%nat.
  - destruct f as [|f]; [pose proof (write_length (JObj l)); lia|]. rewrite write_obj in *. cbn [app read_value length] in *.
    rewrite app_length in Hf. cbn [length] in Hf.
    change (("{" =? quote)%char) with false. change (("{" =? "[")%char) with false. change (("{" =? "{")%char) with true. cbn match.
    rewrite <- app_assoc. cbn [app]. rewrite jdepth_obj.
    destruct l as [|p l].
    + cbn. by destruct d.
    + destruct d as [|d]; [done|].
      assert (∃ c r, comma_list (map member (p :: l)) = c :: r ∧ (c =? "}")%char = false) as (c & r & Hc & Hn).
      { destruct l; cbn [map comma_list]; unfold member, write_str; eexists _, _; split; done. }
      pose proof (members_back p l f d s IH) as He. rewrite Hc in *. cbn [app]. rewrite Hn.
      cbn [app] in He. rewrite He by lia. cbn [Nat.leb].
      by destruct (mdepths (p :: l) <=? d)%nat.
Qed.

Lemma text_round_trip v : json_from_str (json_to_string v) = if (jdepth v <=? 127)%nat then Some v else None.
Proof.
  unfold json_from_str, json_to_string. rewrite string_chars. rewrite <- (app_nil_r (write v)) at 2.
  rewrite all_read_back; [|lia|done]. by destruct (_ <=? _)%nat.
Qed.

(** ** Values through their text *)

(** ** What is written *)
(** *** The reader takes nothing but JSON *)
Lemma unhex_digit c n : unhex c = Some n → hex_digit c n.
Proof.
  unfold hex_digit. destruct c as [[] [] [] [] [] [] [] []]; vm_compute; intros H; first [discriminate H | by injection H as <-].
Qed.
Lemma unescape_short e c :
  unescape e = Some c →
  In (e, c) [("034", "034"); ("\", "\"); ("b", "008"); ("f", "012"); ("n", "010"); ("r", "013"); ("t", "009")]%char.
Proof.
  unfold unescape. intros H.
  repeat match type of H with
         | (if (?x =? ?y)%char then _ else _) = _ => destruct (Ascii.eqb_spec x y) as [->|_]; [injection H as <-; cbn; tauto|]
         end.
  discriminate H.
Qed.
Lemma read_str_sound n : ∀ t s r, (length t <= n)%nat → read_str t = Some (s, r) → ∃ u, t = u ++ quote :: r ∧ spells u s.
Proof.
  induction n as [|n IH]; intros t s r Hn E; destruct t as [|c t]; cbn [length] in Hn; try discriminate E; [lia|].
  cbn [read_str] in E. destruct (Ascii.eqb_spec c quote) as [->|Hq].
  { injection E as <- <-. exists []. split; [done|constructor]. }
  destruct (Ascii.eqb_spec c bslash) as [->|Hb].
  - destruct t as [|e t]; [done|]. cbn [length] in Hn. destruct (Ascii.eqb_spec e "u") as [->|_].
    + destruct t as [|h1 [|h2 [|h3 [|h4 t]]]]; try done. cbn [length] in Hn.
      destruct (Ascii.eqb_spec h1 "0") as [->|]; [|done]. destruct (Ascii.eqb_spec h2 "0") as [->|]; [|done]. cbn [andb] in E.
      destruct (unhex h3) as [a|] eqn:Ea; [|done]. destruct (unhex h4) as [b|] eqn:Eb; [|done].
      destruct (read_str t) as [[s' r']|] eqn:Et; [|done]. destruct (a <? 8)%nat eqn:El; [|done]. injection E as <- <-.
      destruct (IH t s' r') as (u & -> & Hu); [lia|done|]. exists (bslash :: "u"%char :: "0"%char :: "0"%char :: h3 :: h4 :: u).
      split; [done|]. apply Nat.ltb_lt in El. apply spells_hex; try done; by apply unhex_digit.
    + destruct (unescape e) as [c'|] eqn:Ee; [|done]. destruct (read_str t) as [[s' r']|] eqn:Et; [|done]. injection E as <- <-.
      destruct (IH t s' r') as (u & -> & Hu); [lia|done|]. exists (bslash :: e :: u). split; [done|].
      apply spells_short; [by apply unescape_short|done].
  - destruct (code c <? 32)%nat eqn:Ec; [done|]. destruct (read_str t) as [[s' r']|] eqn:Et; [|done]. injection E as <- <-.
    destruct (IH t s' r') as (u & -> & Hu); [lia|done|]. exists (c :: u). split; [done|].
    apply Nat.ltb_ge in Ec. by apply spells_plain.
Qed.
Lemma span_num_split s a b : span_num s = (a, b) → s = a ++ b.
Proof.
  revert a b. induction s as [|c s IH]; intros a b; cbn; [by intros [= <- <-]|].
  destruct (num_char c); [|by intros [= <- <-]]. destruct (span_num s) as [a' b'] eqn:E. intros [= <- <-]. cbn. by rewrite (IH a' b').
Qed.
Lemma read_num_sound s z r : read_num s = Some (z, r) → ∃ u, s = u ++ r ∧ denotes u (JNum z).
Proof.
  unfold read_num. destruct (span_num s) as [a b] eqn:E. destruct (NilZero.int_of_string _) as [d|]; [|done].
  destruct (bool_decide _) eqn:Ed; [|done]. apply bool_decide_eq_true in Ed. intros [= <- <-]. exists a.
  split; [by apply span_num_split|]. rewrite <-Ed. apply denotes_num.
Qed.
Lemma read_word_sound w v s v' r : read_word w v s = Some (v', r) → s = chars w ++ r ∧ v' = v.
Proof.
  unfold read_word. destruct (bool_decide _) eqn:E; [|done]. apply bool_decide_eq_true in E. intros [= <- <-].
  split; [|done]. by rewrite <-E, take_drop.
Qed.
Lemma read_sound f :
  (∀ d s v r, read_value f d s = Some (v, r) → (∃ u, s = u ++ r ∧ denotes u v) ∧ (jdepth v <= d)%nat) ∧
  (∀ d s l r, read_elems f d s = Some (l, r) → (∃ u, s = u ++ "]"%char :: r ∧ denotes_elems u l) ∧ (foldr Nat.max 0%nat (map jdepth l) <= d)%nat) ∧
  (∀ d s l r, read_members f d s = Some (l, r) → (∃ u, s = u ++ "}"%char :: r ∧ denotes_members u l) ∧ (mdepths l <= d)%nat).
Proof.
  induction f as [|f (IHv & IHe & IHm)]; [done|]. split; [|split].
  - intros d s v r E. destruct s as [|c s]; [done|]. cbn [read_value] in E.
    destruct (Ascii.eqb_spec c quote) as [->|_].
    { destruct (read_str s) as [[x t]|] eqn:Es; [|done]. injection E as <- <-. split; [|cbn; lia].
      destruct (read_str_sound _ s x t (Nat.le_refl _) Es) as (u & -> & Hu). exists (quote :: u ++ [quote]).
      split; [by rewrite <-app_comm_cons, <-app_assoc|by apply denotes_str]. }
    destruct (Ascii.eqb_spec c "[") as [->|_].
    { destruct d as [|d]; [done|]. destruct s as [|c' t]; [done|]. destruct (Ascii.eqb_spec c' "]") as [->|_].
      - injection E as <- <-. split; [|cbn; lia]. exists ["["; "]"]%char. split; [done|constructor].
      - destruct (read_elems f d (c' :: t)) as [[l t']|] eqn:Ee; [|done]. injection E as <- <-.
        destruct (IHe _ _ _ _ Ee) as [(u & -> & Hu) Hd]. split; [|cbn [jdepth]; lia].
        exists ("["%char :: u ++ ["]"%char]). split; [by rewrite <-app_comm_cons, <-app_assoc|by apply denotes_arr]. }
    destruct (Ascii.eqb_spec c "{") as [->|_].
    { destruct d as [|d]; [done|]. destruct s as [|c' t]; [done|]. destruct (Ascii.eqb_spec c' "}") as [->|_].
      - injection E as <- <-. split; [|cbn; lia]. exists ["{"; "}"]%char. split; [done|constructor].
      - destruct (read_members f d (c' :: t)) as [[l t']|] eqn:Ee; [|done]. injection E as <- <-.
        destruct (IHm _ _ _ _ Ee) as [(u & -> & Hu) Hd]. split; [|rewrite jdepth_obj; lia].
        exists ("{"%char :: u ++ ["}"%char]). split; [by rewrite <-app_comm_cons, <-app_assoc|by apply denotes_obj]. }
    destruct (Ascii.eqb_spec c "n") as [->|_].
    { apply read_word_sound in E as [-> ->]. split; [|cbn; lia]. eexists. split; [done|constructor]. }
    destruct (Ascii.eqb_spec c "t") as [->|_].
    { apply read_word_sound in E as [-> ->]. split; [|cbn; lia]. eexists. split; [done|constructor]. }
    destruct (Ascii.eqb_spec c "f") as [->|_].
    { apply read_word_sound in E as [-> ->]. split; [|cbn; lia]. eexists. split; [done|constructor]. }
    destruct (read_num (c :: s)) as [[z t]|] eqn:En; [|done]. injection E as <- <-. split; [by apply read_num_sound|cbn; lia].
  - intros d s l r E. cbn [read_elems] in E. destruct (read_value f d s) as [[v [|c t]]|] eqn:Ev; try done.
    destruct (IHv _ _ _ _ Ev) as [(u & -> & Hu) Hd]. destruct (Ascii.eqb_spec c ",") as [->|_].
    + destruct (read_elems f d t) as [[l' t']|] eqn:Ee; [|done]. injection E as <- <-.
      destruct (IHe _ _ _ _ Ee) as [(u' & -> & Hu') Hd']. split; [|cbn [map foldr]; lia].
      exists (u ++ ","%char :: u'). split; [by rewrite <-app_assoc|by apply elems_more].
    + destruct (Ascii.eqb_spec c "]") as [->|_]; [|done]. injection E as <- <-. split; [|cbn [map foldr]; lia].
      exists u. split; [done|by apply elems_one].
  - intros d s l r E. cbn [read_members] in E. destruct s as [|c0 s]; [done|].
    destruct (Ascii.eqb_spec c0 quote) as [->|_]; [|done].
    destruct (read_str s) as [[k [|c1 s1]]|] eqn:Ek; try done.
    destruct (read_str_sound _ s _ _ (Nat.le_refl _) Ek) as (uk & -> & Huk).
    destruct (Ascii.eqb_spec c1 ":") as [->|_]; [|done].
    destruct (read_value f d s1) as [[v [|c t]]|] eqn:Ev; try done.
    destruct (IHv _ _ _ _ Ev) as [(u & -> & Hu) Hd]. destruct (Ascii.eqb_spec c ",") as [->|_].
    + destruct (read_members f d t) as [[l' t']|] eqn:Ee; [|done]. injection E as <- <-.
      destruct (IHm _ _ _ _ Ee) as [(u' & -> & Hu') Hd']. split; [|unfold mdepths, compose in *; cbn [map foldr snd]; lia].
      exists (quote :: uk ++ quote :: ":"%char :: u ++ ","%char :: u'). split; [|by apply members_more].
      cbn. rewrite <-!app_assoc. cbn. by rewrite <-app_assoc.
    + destruct (Ascii.eqb_spec c "}") as [->|_]; [|done]. injection E as <- <-. split; [|unfold mdepths, compose; cbn [map foldr snd]; lia].
      exists (quote :: uk ++ quote :: ":"%char :: u). split; [|by apply members_one].
      cbn. by rewrite <-!app_assoc.
Qed.
(** *** ... and all of it *)
Scheme denotes_rec' := Induction for denotes Sort Prop
  with elems_rec' := Induction for denotes_elems Sort Prop
  with members_rec' := Induction for denotes_members Sort Prop.
Combined Scheme denotes_all from denotes_rec', elems_rec', members_rec'.
Lemma digit_unhex c n : hex_digit c n → unhex c = Some n.
Proof.
  unfold hex_digit. do 16 (destruct n as [|n]; [intros [= <-]; reflexivity|]). destruct n; discriminate.
Qed.
Lemma hex_not_end c n : hex_digit c n → (c =? quote)%char = false.
Proof. unfold hex_digit. do 16 (destruct n as [|n]; [intros [= <-]; reflexivity|]). destruct n; discriminate. Qed.
Lemma read_spells u s r : spells u s → read_str (u ++ quote :: r) = Some (s, r).
Proof.
  induction 1 as [|c t s H1 H2 H3 H IH|e c t s H1 H IH|a b n m t s H1 H2 H3 H IH]; cbn [app read_str].
  - by rewrite Ascii.eqb_refl.
  - destruct (Ascii.eqb_spec c quote) as [->|_]; [done|]. destruct (Ascii.eqb_spec c bslash) as [->|_]; [done|].
    assert ((code c <? 32)%nat = false) as -> by (apply Nat.ltb_ge, H1). by rewrite IH.
  - change (("\" =? quote)%char) with false. change (("\" =? bslash)%char) with true. cbn match.
    cbn in H1. repeat destruct H1 as [[= <- <-]|H1]; try (cbn; rewrite IH; reflexivity). done.
  - change (("\" =? quote)%char) with false. change (("\" =? bslash)%char) with true. cbn match.
    change (("u" =? "u")%char) with true. change (("0" =? "0")%char) with true. cbn [andb]. cbn match.
    rewrite (digit_unhex _ _ H1), (digit_unhex _ _ H2), IH. by assert ((n <? 8)%nat = true) as -> by (by apply Nat.ltb_lt).
Qed.
Lemma denotes_head : 
  (∀ u v, denotes u v → ∃ c r, u = c :: r ∧ (c =? "]")%char = false) ∧
  (∀ u l, denotes_elems u l → ∃ c r, u = c :: r ∧ (c =? "]")%char = false).
Proof.
  assert (∀ u v, denotes u v → ∃ c r, u = c :: r ∧ (c =? "]")%char = false) as Hd.
  { intros u v [| | |z|t s H| |t l H| |t l H]; try (eexists _, _; split; [reflexivity|reflexivity]).
    apply (write_head (JNum z)). }
  split; [done|]. intros u l [t v H|t v t' l' H H']; destruct (Hd _ _ H) as (c & r & -> & Hc); eexists _, _; by split.
Qed.
Lemma leb_max a b d : (Nat.max a b <=? d)%nat = ((a <=? d)%nat && (b <=? d)%nat).
Proof. destruct (Nat.leb_spec a d), (Nat.leb_spec b d), (Nat.leb_spec (Nat.max a b) d); cbn; lia. Qed.
Lemma read_complete :
  (∀ u v, denotes u v → ∀ f d s, (2 * length u ≤ f)%nat → stop s →
     read_value f d (u ++ s) = if (jdepth v <=? d)%nat then Some (v, s) else None) ∧
  (∀ u l, denotes_elems u l → ∀ f d s, (2 * length u < f)%nat →
     read_elems f d (u ++ "]"%char :: s) = if (depths l <=? d)%nat then Some (l, s) else None) ∧
  (∀ u l, denotes_members u l → ∀ f d s, (2 * length u < f)%nat →
     read_members f d (u ++ "}"%char :: s) = if (mdepths l <=? d)%nat then Some (l, s) else None).
Proof.
  apply denotes_all.
  - intros f d s Hf Hs. destruct f as [|f]; [cbn in Hf; lia|]. apply (read_word_back "null").
  - intros f d s Hf Hs. destruct f as [|f]; [cbn in Hf; lia|]. apply (read_word_back "true").
  - intros f d s Hf Hs. destruct f as [|f]; [cbn in Hf; lia|]. apply (read_word_back "false").
  - intros z f d s Hf Hs. apply (all_read_back (JNum z)); done.
  - intros t x Hx f d s Hf Hs. destruct f as [|f]; [cbn in Hf; lia|]. cbn [app read_value].
    change (("034" =? quote)%char) with true. rewrite <- app_assoc. cbn [app]. by rewrite (read_spells _ _ _ Hx).
  - intros f d s Hf Hs. destruct f as [|f]; [cbn in Hf; lia|]. by destruct d.
  - intros t l Hl IH f d s Hf Hs. destruct f as [|f]; [cbn in Hf; lia|]. cbn [app length read_value] in *.
    rewrite app_length in Hf. cbn [length] in Hf. rewrite <-app_assoc. cbn [app].
    change (("[" =? quote)%char) with false. change (("[" =? "[")%char) with true. cbn match.
    change (jdepth (JArr l)) with (S (depths l)).
    destruct d as [|d]; [done|]. destruct denotes_head as [_ He]. destruct (He t l Hl) as (c & r & -> & Hc).
    cbn [app] in *. rewrite Hc, IH by lia. cbn [Nat.leb]. by destruct (depths l <=? d)%nat.
  - intros f d s Hf Hs. destruct f as [|f]; [cbn in Hf; lia|]. by destruct d.
  - intros t l Hl IH f d s Hf Hs. destruct f as [|f]; [cbn in Hf; lia|]. cbn [app length read_value] in *.
    rewrite app_length in Hf. cbn [length] in Hf. rewrite <-app_assoc. cbn [app].
    change (("{" =? quote)%char) with false. change (("{" =? "[")%char) with false. change (("{" =? "{")%char) with true. cbn match.
    rewrite jdepth_obj. destruct d as [|d]; [done|].
    assert (∃ c r, t = c :: r ∧ (c =? "}")%char = false) as (c & r & -> & Hc) by (destruct Hl; eexists _, _; by split).
    cbn [app] in *. rewrite Hc, IH by lia. cbn [Nat.leb]. by destruct (mdepths l <=? d)%nat.
  - intros t v Hv IH f d s Hf. destruct f as [|f]; [lia|]. cbn [read_elems]. rewrite IH; [|lia|done].
    unfold depths. cbn [map foldr]. rewrite Nat.max_0_r. by destruct (jdepth v <=? d)%nat.
  - intros t v t' l Hv IHv Hl IHl f d s Hf. destruct f as [|f]; [lia|]. rewrite app_length in Hf. cbn [length] in Hf.
    destruct denotes_head as [Hh _]. destruct (Hh t v Hv) as (c & r & Et & _). assert (0 < length t)%nat by (rewrite Et; cbn; lia).
    cbn [read_elems]. rewrite <-app_assoc, <-app_comm_cons. rewrite IHv; [|lia|done].
    change (depths (v :: l)) with (Nat.max (jdepth v) (depths l)). rewrite leb_max.
    destruct (jdepth v <=? d)%nat; [|done]. cbn [andb]. change (("," =? ",")%char) with true. cbn match. rewrite IHl by lia.
    by destruct (depths l <=? d)%nat.
  - intros k x t v Hk Hv IH f d s Hf. destruct f as [|f]; [lia|]. cbn [app length] in *. rewrite !app_length in Hf. cbn [length] in Hf.
    cbn [read_members]. change (("034" =? quote)%char) with true. rewrite <-app_assoc. cbn [app].
    rewrite (read_spells _ _ _ Hk). change ((":" =? ":")%char) with true. cbn match. rewrite IH; [|lia|done].
    unfold mdepths. cbn [map foldr compose snd]. rewrite Nat.max_0_r. by destruct (jdepth v <=? d)%nat.
  - intros k x t v t' l Hk Hv IHv Hl IHl f d s Hf. destruct f as [|f]; [lia|]. cbn [app length] in *.
    rewrite !app_length in Hf. cbn [length] in Hf. rewrite app_length in Hf. cbn [length] in Hf.
    cbn [read_members]. change (("034" =? quote)%char) with true. rewrite <-app_assoc. cbn [app].
    rewrite (read_spells _ _ _ Hk). change ((":" =? ":")%char) with true. cbn match.
    rewrite <-app_assoc, <-app_comm_cons. rewrite IHv; [|lia|done].
    change (mdepths ((x, v) :: l)) with (Nat.max (jdepth v) (mdepths l)). rewrite leb_max.
    destruct (jdepth v <=? d)%nat; [|done]. cbn [andb]. change (("," =? ",")%char) with true. cbn match. rewrite IHl by lia.
    by destruct (mdepths l <=? d)%nat.
Qed.
Lemma reads_only_json s v : json_from_str s = Some v → denotes (chars s) v ∧ (jdepth v <= 127)%nat.
Proof.
  unfold json_from_str. destruct (read_value _ _ _) as [[v' [|c t]]|] eqn:E; try done. intros [= <-].
  destruct (read_sound (2 * length (chars s))) as (H & _). destruct (H _ _ _ _ E) as [(u & Eu & Hu) Hd].
  rewrite app_nil_r in Eu. by rewrite Eu.
Qed.
Lemma reads_json s v : json_from_str s = Some v ↔ denotes (chars s) v ∧ (jdepth v <= 127)%nat.
Proof.
  split; [apply reads_only_json|]. intros [H Hd]. unfold json_from_str. destruct read_complete as (Hc & _).
  specialize (Hc _ _ H (2 * length (chars s))%nat 127%nat []). rewrite app_nil_r in Hc. rewrite Hc; [|lia|done].
  apply Nat.leb_le in Hd. by rewrite Hd.
Qed.
Lemma writes_json v : denotes (chars (json_to_string v)) v.
Proof.
  unfold json_to_string. rewrite string_chars.
  assert (∀ v d, (jdepth v <= d)%nat → denotes (write v) v) as H; [|by eapply H].
  clear v. intros v d Hd. pose proof (all_read_back v (2 * length (write v))%nat d [] (Nat.le_refl _) Logic.I) as E.
  apply Nat.leb_le in Hd. rewrite Hd in E. destruct (read_sound (2 * length (write v))) as (Hs & _).
  destruct (Hs _ _ _ _ E) as [(u & Eu & Hu) _]. rewrite !app_nil_r in Eu. by rewrite Eu.
Qed.

Lemma plain_text s :
  Forall (λ c, (32 ≤ code c)%nat ∧ c ≠ quote ∧ c ≠ bslash) (chars s) → write_str s = quote :: chars s ++ [quote].
Proof.
  intros H. unfold write_str. f_equal. f_equal. induction H as [|c l (H1 & H2 & H3) _ IH]; [done|].
  cbn [map concat]. rewrite IH. unfold escape.
  destruct (Ascii.eqb_spec c quote) as [|_]; [done|]. destruct (Ascii.eqb_spec c bslash) as [|_]; [done|].
  repeat (rewrite (proj2 (Nat.eqb_neq _ _)) by lia). by rewrite (proj2 (Nat.ltb_ge _ _)) by lia.
Qed.
Definition printed (c : ascii) : Prop := (32 ≤ code c)%nat.
Lemma printed_escape c : Forall printed (escape c).
Proof.
  assert (∀ n, (n < 16)%nat → printed (hex n)) as Hh.
  { intros n Hn. unfold printed, hex, code. destruct (Nat.ltb_spec n 10); rewrite nat_ascii_embedding; lia. }
  unfold escape. destruct (_ =? _)%char; [repeat constructor; by apply Nat.leb_le|].
  destruct (_ =? _)%char; [repeat constructor; by apply Nat.leb_le|].
  do 5 (destruct (_ =? _)%nat; [repeat constructor; by apply Nat.leb_le|]).
  destruct (Nat.ltb_spec (code c) 32); [|by repeat constructor].
  cbn [chars list_ascii_of_string app]. do 4 (constructor; [by apply Nat.leb_le|]).
  constructor; [|constructor; [|constructor]]; apply Hh; [|by apply Nat.mod_upper_bound].
  apply Nat.div_lt_upper_bound; lia.
Qed.
Lemma printed_chars w : forallb (λ c, (32 <=? code c)%nat) (chars w) = true → Forall printed (chars w).
Proof.
  intros H. apply list.Forall_forall. intros c Hc. apply elem_of_list_In in Hc.
  rewrite forallb_forall in H. apply Nat.leb_le. by apply H.
Qed.
Lemma printed_str s : Forall printed (write_str s).
Proof.
  unfold write_str. constructor; [by apply Nat.leb_le|]. apply Forall_app. split; [|repeat constructor; by apply Nat.leb_le].
  induction (chars s) as [|c l IH]; [constructor|]. cbn. apply Forall_app. split; [apply printed_escape|done].
Qed.
Lemma printed_num z : Forall printed (write_num z).
Proof.
  eapply list.Forall_impl; [apply num_chars|]. intros c Hc. unfold printed.
  apply Nat.leb_le. destruct c as [[] [] [] [] [] [] [] []]; try done.
Qed.
Lemma printed_comma l : Forall (Forall printed) l → Forall printed (comma_list l).
Proof.
  induction 1 as [|x l Hx Hl IH]; [constructor|]. destruct l as [|y l]; [done|]. rewrite comma_cons.
  apply Forall_app. split; [done|]. constructor; [by apply Nat.leb_le|done].
Qed.
Lemma printed_write v : Forall printed (write v).
Proof.
  induction v as [| b | z | t | l IH | l IH] using json_ind'.
  - by apply printed_chars.
  - destruct b; by apply printed_chars.
  - apply printed_num.
  - apply printed_str.
  - cbn [write]. constructor; [by apply Nat.leb_le|]. apply Forall_app. split; [|repeat constructor; by apply Nat.leb_le].
    apply printed_comma. by apply Forall_fmap.
  - rewrite write_obj. constructor; [by apply Nat.leb_le|]. apply Forall_app. split; [|repeat constructor; by apply Nat.leb_le].
    apply printed_comma. apply Forall_fmap. eapply list.Forall_impl; [exact IH|]. intros [k v] Hv. unfold compose, member. cbn [fst snd] in *.
    apply Forall_app. split; [apply printed_str|]. constructor; [by apply Nat.leb_le|done].
Qed.
Lemma printed_json v : Forall printed (chars (json_to_string v)).
Proof. unfold json_to_string. rewrite string_chars. apply printed_write. Qed.
Lemma plain_json s :
  Forall (λ c, (32 ≤ code c)%nat ∧ c ≠ quote ∧ c ≠ bslash) (chars s) →
  chars (json_to_string (JStr s)) = quote :: chars s ++ [quote].
Proof. intros H. unfold json_to_string. rewrite string_chars. by apply plain_text. Qed.

Definition filt (v : value) : value := of_text (to_text v).
Lemma filt_eq v : filt v = match v with Some j => if (jdepth j <=? 127)%nat then Some j else None | None => None end.
Proof. destruct v as [j|]; [|done]. apply text_round_trip. Qed.
Lemma ctx_depth c : (jdepth (enc_context c) ≤ 4)%nat.
Proof.
  destruct c as [id [|a|e n r [t m1 en]] st [[n' [m|] [du|du]]|] ca [eq|] [ra|] [co|] [cn|] rc]; try destruct m1; try destruct en; cbn; lia.
Qed.
Lemma filt_enc {M} {S : Serde M} (j : job M) :
  filt (@enc_job M S j) = @enc_job M (limited 126 S) j.
Proof.
  rewrite filt_eq. unfold enc_job. cbn [ser limited]. destruct (ser (data j)) as [v|]; [|done]. cbn [mbind option_bind].
  change (jdepth (JObj _)) with (Datatypes.S (Nat.max (jdepth (enc_context (ctx j))) (Nat.max (jdepth v) 0))).
  pose proof (ctx_depth (ctx j)).
  destruct (Nat.leb_spec (jdepth v) 126); cbn [mbind option_bind].
  - rewrite (proj2 (Nat.leb_le _ _)); [done|lia].
  - rewrite (proj2 (Nat.leb_gt _ _)); [done|lia].
Qed.

(** ** Programs whose stored values go through their text *)

Definition fe {X : Set} (e : eff X) : eff X :=
  match e in eff X return eff X with SUpsert h k v => SUpsert h k (filt v) | e => e end.
Inductive psim {A} : prog A → prog A → Prop :=
  | ps_ret a : psim (Ret a) (Ret a)
  | ps_panic : psim Panic Panic
  | ps_diverge : psim Diverge Diverge
  | ps_eff (X : Set) (e : eff X) k k' : (∀ x, psim (k x) (k' x)) → psim (Eff e k) (Eff (fe e) k').
Local Hint Constructors psim : core.
Lemma ps_bind {A B} (p p' : prog A) (f f' : A → prog B) :
  psim p p' → (∀ a, psim (f a) (f' a)) → psim (bind p f) (bind p' f').
Proof. induction 1; cbn; auto. Qed.
Lemma ps_do {X : Set} (e : eff X) : psim (do e) (do (fe e)).
Proof. unfold do. auto. Qed.
Lemma via_fe {W} (h : handler W) X (e : eff X) w : via_text h X e w = h X (fe e) w.
Proof. by destruct e. Qed.
Lemma ps_run {A W} (h : handler W) (p p' : prog A) w : psim p p' → run (via_text h) p w = run h p' w.
Proof.
  intros H; revert w; induction H as [| | |X e k k' _ IH]; intros w; cbn; [done..|].
  rewrite via_fe. destruct (h X (fe e) w). apply IH.
Qed.
Lemma ps_run_n {A W} (h : handler W) (p p' : prog A) n w : psim p p' → run_n (via_text h) n p w = run_n h n p' w.
Proof.
  intros H; revert n w; induction H as [| | |X e k k' _ IH]; intros [|n] w; cbn; [done..|].
  rewrite via_fe. destruct (h X (fe e) w). apply IH.
Qed.

Section text.
  Context {M : Type} (S L : Serde M).
  Context (HL : ∀ j : job M, filt (@enc_job M S j) = @enc_job M L j).
  Context (HD : ∀ v, @dec_job M S v = @dec_job M L v).
  Context (prof : profile).
  Context (sched : string → option (time → option time)).
  Context (name : string).
  Notation qname := (format_queue_name name).

  Lemma ps_same {X : Set} (e : eff X) : fe e = e → psim (do e) (do e).
  Proof. intros H. rewrite <- H at 2. apply ps_do. Qed.
  Hint Extern 1 (fe _ = _) => reflexivity : core.
  Hint Resolve ps_same : core.

  Lemma ps_get id : psim (@get_from_storage M S id) (@get_from_storage M L id).
  Proof. apply ps_bind; [by apply ps_same|]. intros [[[|]|]|]; cbn; rewrite ?HD; auto. Qed.
  Lemma ps_upsert k (j : job M) : psim (@upsert_to_storage M S k j) (@upsert_to_storage M L k j).
  Proof. unfold upsert_to_storage. rewrite <- HL. apply ps_do. Qed.
  Lemma ps_save (j : job M) : psim (@save_and_notify M S j) (@save_and_notify M L j).
  Proof.
    apply ps_bind; [apply ps_upsert|]. intros [|]; [|auto]. apply ps_bind; [by apply ps_same|auto].
  Qed.
  Lemma ps_push s id : psim (do (QPush (qname s) id)) (do (QPush (qname s) id)).
  Proof. by apply ps_same. Qed.
  Lemma ps_now_ms {A} (f f' : Z → prog A) : (∀ t, psim (f t) (f' t)) → psim (bind get_now_as_ms f) (bind get_now_as_ms f').
  Proof. intros. apply ps_bind; [|done]. apply ps_bind; [by apply ps_same|auto]. Qed.
  Lemma ps_job_enqueue (j : job M) : psim (@job_enqueue M S j) (@job_enqueue M L j).
  Proof. apply ps_now_ms. intros t. apply ps_save. Qed.
  Lemma ps_enqueue (j : job M) : psim (@enqueue M S name j) (@enqueue M L name j).
  Proof.
    apply ps_bind; [auto|]. intros [|]; [|auto].
    apply ps_bind; [apply ps_job_enqueue|]. intros [|]; auto.
  Qed.
  Lemma ps_re_enqueue (j : job M) : psim (@re_enqueue M S name j) (@re_enqueue M L name j).
  Proof.
    apply ps_bind; [auto|]. intros [|]; [|auto].
    apply ps_bind; [apply ps_job_enqueue|]. intros [|]; [|auto].
    apply ps_bind; auto.
  Qed.
  Lemma ps_run_with (j : job M) ec : psim (@run_with_config M S name j ec) (@run_with_config M L name j ec).
  Proof.
    apply ps_bind; [apply ps_get|]. intros [[ex|]|]; [|apply ps_enqueue|auto].
    apply ps_bind; [destruct (_ && _); [apply ps_upsert|auto]|].
    intros [|]; [|auto]. destruct (_ && _); [|auto].
    apply ps_bind; [apply ps_enqueue|]. intros [|]; auto.
  Qed.
  Lemma ps_cancel id : psim (@cancel_job M S name id) (@cancel_job M L name id).
  Proof.
    apply ps_bind; [apply ps_get|]. intros [[j|]|]; [|auto..].
    destruct (is_queued j); [|auto].
    apply ps_bind; [apply ps_now_ms; intros; apply ps_save|]. intros [|]; [|auto].
    apply ps_bind; [auto|]. intros [|]; auto.
  Qed.
  Lemma ps_retry id : psim (@retry_job M S name id) (@retry_job M L name id).
  Proof.
    apply ps_bind; [apply ps_get|]. intros [[j|]|]; [|auto..].
    destruct (is_done j); [|auto].
    apply ps_bind; [apply ps_re_enqueue|]. intros [|]; auto.
  Qed.
  Lemma ps_batch total ids (ready : list (job M)) :
    psim (@pick_batch M S name total ids ready) (@pick_batch M L name total ids ready).
  Proof.
    revert ready; induction ids as [|id ids IH]; intros ready; [cbn; auto|]. cbn [pick_batch].
    assert (psim (let? _ := do (QMove (qname Queued) (qname Queued) 1 Back Front) in @pick_batch M S name total ids ready)
                 (let? _ := do (QMove (qname Queued) (qname Queued) 1 Back Front) in @pick_batch M L name total ids ready)) as Hrot.
    { apply ps_bind; [auto|]. intros [|]; [apply IH|auto]. }
    apply ps_bind; [apply ps_get|]. intros [[j|]|]; [|done|auto].
    apply ps_bind; [unfold get_now; auto|]. intros now.
    destruct (_ && _ && _); [|done].
    apply ps_bind; [apply ps_now_ms; intros; apply ps_save|]. intros [j'|]; [|auto].
    apply ps_bind; [auto|]. intros [|]; [apply IH|auto].
  Qed.
  Lemma ps_loop fuel total (ready : list (job M)) cursor :
    psim (@pick_loop M S prof name fuel total ready cursor) (@pick_loop M L prof name fuel total ready cursor).
  Proof.
    revert ready cursor; induction fuel as [|fuel IH]; intros ready cursor; [cbn; auto|]. cbn [pick_loop].
    apply ps_bind; [auto|]. intros [ids|]; [|auto].
    destruct (i32_norm _ _); [|auto].
    apply ps_bind; [apply ps_batch|]. intros [r|]; [|auto].
    destruct (_ <=? _)%nat; [auto|]. destruct (_ <=? _); [auto|apply IH].
  Qed.
  Lemma ps_pick n : psim (@pick_jobs_to_process M S prof name n) (@pick_jobs_to_process M L prof name n).
  Proof.
    apply ps_bind; [auto|]. intros r. cbv zeta. destruct (_ <=? _)%nat; [auto|].
    apply ps_bind; [auto|]. intros [|]; [apply ps_loop|auto].
  Qed.
  Lemma ps_process c ts : psim (@process_jobs M S prof name c ts) (@process_jobs M L prof name c ts).
  Proof. apply ps_bind; [apply ps_pick|]. auto. Qed.
  Lemma ps_finish (j : job M) : psim (@mark_job_is_finished M S name j) (@mark_job_is_finished M L name j).
  Proof.
    apply ps_bind; [apply ps_bind; auto|]. intros _.
    apply ps_bind; [apply ps_now_ms; intros; apply ps_save|]. intros [|]; [|auto].
    apply ps_bind; auto.
  Qed.
  Lemma ps_fail (j : job M) : psim (@mark_job_is_failed M S name j) (@mark_job_is_failed M L name j).
  Proof.
    apply ps_bind; [apply ps_now_ms; intros; apply ps_save|]. intros [|]; [|auto].
    apply ps_bind; [|auto]. apply ps_bind; [apply ps_bind; auto|]. intros _. apply ps_bind; auto.
  Qed.
  Lemma ps_next_tick (j : job M) : psim (next_tick prof sched j) (next_tick prof sched j).
  Proof.
    apply ps_bind; [unfold get_now; auto|]. intros now. destruct (jtype (ctx j)); [auto|auto|].
    destruct (sched expression) as [after|]; [|auto].
    apply ps_bind; [unfold get_now; auto|]. intros now2. cbv zeta.
    destruct (after now2) as [u|]; [destruct (i32_norm _ _); [|auto]|];
      repeat (match goal with |- context [if ?b then _ else _] => destruct b end); auto.
  Qed.
  Lemma ps_tail (orig j : job M) u :
    psim (@task_tail M S prof sched name orig j u) (@task_tail M L prof sched name orig j u).
  Proof.
    assert (∀ (j : job M) b, psim (@execute_finish M S prof sched name j b) (@execute_finish M L prof sched name j b)) as Hf.
    { intros j' b. apply ps_bind; [apply ps_next_tick|].
      intros [nj|]; [apply ps_re_enqueue|]. destruct b; [apply ps_fail|apply ps_finish]. }
    apply ps_bind.
    - unfold execute_tail. destruct (jretry (ctx j)) as [r|]; [|apply Hf].
      apply ps_bind.
      + unfold call_retry_at. destruct (ur_retry u); [|auto]. destruct (_ && _); [|auto].
        apply ps_bind; [unfold get_now; auto|]. intros now. destruct (retry_retry_at _ _ _) as [[]|]; auto.
      + intros [r' [t|]]; [apply ps_re_enqueue|apply Hf].
    - intros [|]; [auto|]. apply ps_bind; [apply ps_fail|auto].
  Qed.
  Lemma ps_task (t : task M) u : psim (@task_step M S prof sched name t u) (@task_step M L prof sched name t u).
  Proof.
    unfold task_step. destruct (t_phase t); [|auto| |].
    - destruct (is_cancelled _).
      + apply ps_bind; [apply ps_bind; auto|auto].
      + apply ps_bind; [unfold plugin_before; auto|auto].
    - apply ps_bind; [unfold plugin_after; auto|auto].
    - apply ps_bind; [apply ps_tail|auto].
  Qed.
  Lemma ps_event c ts (e : event M) :
    psim (@ev_prog M S prof sched name c ts e) (@ev_prog M L prof sched name c ts e).
  Proof.
    destruct e; cbn [ev_prog]; auto.
    - apply ps_bind; [apply ps_run_with|auto].
    - apply ps_bind; [apply ps_cancel|auto].
    - apply ps_bind; [apply ps_get|auto].
    - apply ps_bind; [apply ps_retry|auto].
    - apply ps_bind; [apply ps_process|auto].
    - destruct (ts !! i); [|auto]. apply ps_bind; [apply ps_task|]. intros [o js]; auto.
    - apply ps_bind; [apply ps_process|auto].
  Qed.

  Lemma text_commit {W} (h : handler W) s e :
    @commit M S prof sched name W (via_text h) s e = @commit M L prof sched name W h s e.
  Proof. unfold commit. by rewrite (ps_run h _ _ _ (ps_event _ _ _)). Qed.
  Lemma text_step {W} (h : handler W) s e :
    @sys_step M S prof sched name W (via_text h) s e = @sys_step M L prof sched name W h s e.
  Proof.
    assert (∀ n c ts e w, run_n (via_text h) n (@ev_prog M S prof sched name c ts e) w =
      run_n h n (@ev_prog M L prof sched name c ts e) w) as Hn by (intros; apply ps_run_n, ps_event).
    unfold sys_step. rewrite text_commit. destruct (alive s), e as [| | | | | | | | |e n|]; try reflexivity.
    - destruct e; rewrite ?Hn; reflexivity.
    - destruct e; rewrite ?Hn; reflexivity.
  Qed.
  Lemma text_sys_run {W} (h : handler W) s es :
    @sys_run M S prof sched name W (via_text h) s es = @sys_run M L prof sched name W h s es.
  Proof.
    unfold sys_run. revert s; induction es as [|e es IH]; intros s; [done|]. cbn [fold_left]. by rewrite text_step, IH.
  Qed.
  Lemma text_responses {W} (h : handler W) s es :
    @responses M S prof sched name W (via_text h) s es = @responses M L prof sched name W h s es.
  Proof. revert s; induction es as [|e es IH]; intros s; [done|]. cbn [responses]. by rewrite text_step, IH. Qed.
End text.

(** ** Related worlds *)

Section rel.
  Context {M : Type} `{SM : Serde M}.
  Context (prof : profile).
  Context (sched : string → option (time → option time)).
  Context (name : string).
  Context {W1 W2 : Type} (h1 : handler W1) (h2 : handler W2) (R : W1 → W2 → Prop).
  Context (HR : ∀ (X : Set) (e : eff X) w1 w2, R w1 w2 → snd (h1 X e w1) = snd (h2 X e w2) ∧ R (fst (h1 X e w1)) (fst (h2 X e w2))).

  Lemma rel_run {A} (p : prog A) w1 w2 :
    R w1 w2 → snd (run h1 p w1) = snd (run h2 p w2) ∧ R (fst (run h1 p w1)) (fst (run h2 p w2)).
  Proof.
    revert w1 w2; induction p as [a| | |X e k IH]; intros w1 w2 Hw; cbn; [done..|].
    destruct (HR X e w1 w2 Hw) as [Hx Hw']. destruct (h1 X e w1), (h2 X e w2). cbn in *. subst. by apply IH.
  Qed.
  Lemma rel_run_n {A} (p : prog A) n w1 w2 : R w1 w2 → R (run_n h1 n p w1) (run_n h2 n p w2).
  Proof.
    revert n w1 w2; induction p as [a| | |X e k IH]; intros [|n] w1 w2 Hw; cbn; [done..|].
    destruct (HR X e w1 w2 Hw) as [Hx Hw']. destruct (h1 X e w1), (h2 X e w2). cbn in *. subst. by apply IH.
  Qed.
  Definition rel_sys (s : sys W1 M) (r : sys W2 M) : Prop :=
    R (sw s) (sw r) ∧ cfg s = cfg r ∧ tasks s = tasks r ∧ alive s = alive r ∧ runs s = runs r.
  Lemma rel_commit s r e : rel_sys s r →
    (commit prof sched name h1 s e).2 = (commit prof sched name h2 r e).2 ∧
    rel_sys (commit prof sched name h1 s e).1 (commit prof sched name h2 r e).1.
  Proof.
    intros (Hw & Hc & Ht & Ha & Hr). unfold commit. rewrite <-Hc, <-Ht, <-Hr.
    destruct (rel_run (ev_prog prof sched name (cfg s) (tasks s) e) _ _ Hw) as [Hx Hw'].
    destruct (run h1 _ (sw s)) as [w o], (run h2 _ (sw r)) as [w' o'].
    cbn in Hx, Hw'. subst o'. destruct o as [[[[c ts] js] rr]| |]; done.
  Qed.
  Lemma rel_step s r e : rel_sys s r →
    (sys_step prof sched name h1 s e).2 = (sys_step prof sched name h2 r e).2 ∧
    rel_sys (sys_step prof sched name h1 s e).1 (sys_step prof sched name h2 r e).1.
  Proof.
    intros HS. pose proof HS as (Hw & Hc & Ht & Ha & Hr). unfold sys_step. rewrite <-Ha.
    destruct (alive s) eqn:Eal.
    - destruct e; try (by apply rel_commit); cbn.
      + split; [done|]. unfold rel_sys; cbn. by rewrite Hr.
      + split; [done|]. unfold rel_sys; cbn. by rewrite Hr.
      + split; [done|]. unfold rel_sys; cbn. rewrite <-Hr, <-Hc, <-Ht. split; [|done].
        destruct e; try done; by apply rel_run_n.
      + done.
    - destruct e; try done; try (by apply rel_commit).
      destruct e; try done. split; [done|]. unfold rel_sys; cbn [fst sw cfg tasks alive runs].
      rewrite <-Hr, <-Hc, <-Ht. split; [|done]. by apply rel_run_n.
  Qed.
  Lemma rel_responses s r es : rel_sys s r →
    responses prof sched name h1 s es = responses prof sched name h2 r es ∧
    rel_sys (sys_run prof sched name h1 s es) (sys_run prof sched name h2 r es).
  Proof.
    revert s r; induction es as [|e es IH]; intros s r HS; [done|].
    cbn. destruct (rel_step s r e HS) as [-> HS']. destruct (IH _ _ HS') as [-> ?]. done.
  Qed.
End rel.

Definition trel (t : tworld) (w : world) : Prop :=
  queues (st (tw t)) = queues (st w) ∧ reads (tw t) = reads w ∧ log (tw t) = log w ∧
  ∀ h k, mem_sget (st w) h k = of_text <$> text_get (texts t) h k.
Lemma sget_upsert s h k v h' k' :
  mem_sget (mem_upsert s h k v) h' k' = if decide (h = h' ∧ k = k') then Some v else mem_sget s h' k'.
Proof.
  unfold mem_sget, mem_upsert. destruct (storages s !! h) as [m|] eqn:E; cbn [storages].
  - destruct (decide (h = h')) as [<-|Hh].
    + rewrite lookup_insert. destruct (decide (k = k')) as [<-|Hk].
      * rewrite lookup_insert. by rewrite decide_True.
      * rewrite lookup_insert_ne by done. rewrite decide_False by tauto. by rewrite E.
    + rewrite lookup_insert_ne by done. rewrite decide_False by tauto. done.
  - destruct (decide (h = h')) as [<-|Hh].
    + rewrite lookup_insert. destruct (decide (k = k')) as [<-|Hk].
      * rewrite lookup_singleton. by rewrite decide_True.
      * rewrite lookup_singleton_ne by done. rewrite decide_False by tauto. by rewrite E.
    + rewrite lookup_insert_ne by done. rewrite decide_False by tauto. done.
Qed.
Lemma tget_upsert s h k v h' k' :
  text_get (text_upsert s h k v) h' k' = if decide (h = h' ∧ k = k') then Some v else text_get s h' k'.
Proof.
  unfold text_get, text_upsert. destruct (s !! h) as [m|] eqn:E.
  - destruct (decide (h = h')) as [<-|Hh].
    + rewrite lookup_insert. destruct (decide (k = k')) as [<-|Hk].
      * rewrite lookup_insert. by rewrite decide_True.
      * rewrite lookup_insert_ne by done. rewrite decide_False by tauto. by rewrite E.
    + rewrite lookup_insert_ne by done. rewrite decide_False by tauto. done.
  - destruct (decide (h = h')) as [<-|Hh].
    + rewrite lookup_insert. destruct (decide (k = k')) as [<-|Hk].
      * rewrite lookup_singleton. by rewrite decide_True.
      * rewrite lookup_singleton_ne by done. rewrite decide_False by tauto. by rewrite E.
    + rewrite lookup_insert_ne by done. rewrite decide_False by tauto. done.
Qed.

Lemma trel_step clock (X : Set) (e : eff X) t w :
  trel t w → snd (text_h clock X e t) = snd (via_text (mem_h clock) X e w) ∧
  trel (fst (text_h clock X e t)) (fst (via_text (mem_h clock) X e w)).
Proof.
  intros (Hq & Hr & Hl & Hs). destruct t as [[[qs ss] rd lg] tx], w as [[qs' ss'] rd' lg']. cbn in Hq, Hr, Hl. subst.
  destruct e; cbn.
  - split; [done|]. unfold mem_push. cbn. destruct (qs' !! queue); repeat split; apply Hs.
  - unfold mem_move. cbn. destruct (qs' !! from) as [q|]; [destruct (pop_n fd count q)|]; cbn; repeat split; try done; apply Hs.
  - split; [done|]. unfold mem_remove. cbn. destruct (qs' !! queue); repeat split; apply Hs.
  - repeat split; apply Hs.
  - repeat split; apply Hs.
  - split; [done|]. split; [cbn; unfold mem_upsert; cbn; by destruct (ss' !! hash)|]. repeat split.
    intros h k. cbn [st texts set_st]. rewrite sget_upsert, tget_upsert. destruct (decide _); [done|]. apply Hs.
  - split; [|done]. f_equal. symmetry. apply Hs.
  - repeat split; apply Hs.
  - repeat split; apply Hs.
Qed.

Lemma shallow_filt {M} {S : Serde M} (j : job M) :
  (∀ (d : M) v, ser d = Some v → (jdepth v ≤ 126)%nat) → filt (@enc_job M S j) = @enc_job M S j.
Proof.
  intros H. rewrite filt_enc. unfold enc_job. cbn [ser limited]. destruct (ser (data j)) as [v|] eqn:E; [|done].
  apply H in E. by rewrite (proj2 (Nat.leb_le _ _)).
Qed.

Section histories.
  Context {M : Type}.
  Context (prof : profile).
  Context (sched : string → option (time → option time)).
  Context (name : string).
  Context (clock : nat → time).

  Lemma text_histories_gen (S L : Serde M) (es : list (event M)) :
    (∀ j : job M, filt (@enc_job M S j) = @enc_job M L j) → (∀ v, @dec_job M S v = @dec_job M L v) →
    let t := @sys_run M S prof sched name _ (text_h clock) (sys_init tworld_empty) es in
    let s := @sys_run M L prof sched name _ (mem_h clock) (sys_init world_empty) es in
    @responses M S prof sched name _ (text_h clock) (sys_init tworld_empty) es =
    @responses M L prof sched name _ (mem_h clock) (sys_init world_empty) es ∧
    runs t = runs s ∧ tasks t = tasks s ∧ alive t = alive s ∧ log (tw (sw t)) = log (sw s) ∧
    ∀ q, qlist name (tw (sw t)) q = qlist name (sw s) q.
  Proof.
    intros HL HD t s. unfold t, s.
    destruct (@rel_responses M S prof sched name _ _ (text_h clock) (via_text (mem_h clock)) trel (trel_step clock)
      (sys_init tworld_empty) (sys_init world_empty) es) as [Hr Hs]; [repeat split|].
    rewrite (text_responses S L HL HD) in Hr. rewrite (text_sys_run S L HL HD) in Hs.
    destruct Hs as ((Hq & Hrd & Hlg & Hsg) & Hc & Ht & Ha & Hrs).
    repeat split; try done. intros q. unfold qlist. by rewrite Hq.
  Qed.

  Lemma text_histories (S : Serde M) (es : list (event M)) :
    let t := @sys_run M S prof sched name _ (text_h clock) (sys_init tworld_empty) es in
    let s := @sys_run M (limited 126 S) prof sched name _ (mem_h clock) (sys_init world_empty) es in
    @responses M S prof sched name _ (text_h clock) (sys_init tworld_empty) es =
    @responses M (limited 126 S) prof sched name _ (mem_h clock) (sys_init world_empty) es ∧
    runs t = runs s ∧ tasks t = tasks s ∧ alive t = alive s ∧ log (tw (sw t)) = log (sw s) ∧
    ∀ q, qlist name (tw (sw t)) q = qlist name (sw s) q.
  Proof. apply text_histories_gen; [apply filt_enc|done]. Qed.
  Lemma text_shallow (S : Serde M) (es : list (event M)) :
    (∀ (d : M) v, ser d = Some v → (jdepth v ≤ 126)%nat) →
    let t := sys_run prof sched name (text_h clock) (sys_init tworld_empty) es in
    let s := sys_run prof sched name (mem_h clock) (sys_init world_empty) es in
    responses prof sched name (text_h clock) (sys_init tworld_empty) es =
    responses prof sched name (mem_h clock) (sys_init world_empty) es ∧
    runs t = runs s ∧ tasks t = tasks s ∧ alive t = alive s ∧ log (tw (sw t)) = log (sw s) ∧
    ∀ q, qlist name (tw (sw t)) q = qlist name (sw s) q.
  Proof. intros H. apply text_histories_gen; [|done]. intros j. by apply shallow_filt. Qed.

  Lemma mem_no_faults (S : Serde M) (es : list (event M)) :
    runs (sys_run prof sched name (mem_h clock) (sys_init world_empty) es) =
    runs (fafter prof sched name clock (λ _, FOk) es).
  Proof.
    destruct (rel_responses prof sched name (mem_h clock) (faulty_h clock (λ _, FOk)) (λ w f, fw f = w)) with
      (s := @sys_init world M world_empty) (r := @sys_init fworld M (FWorld world_empty 0)) (es := es) as [_ (_ & _ & _ & _ & H)].
    - intros X e w f <-. unfold faulty_h. destruct (fail_ans e); by destruct (mem_h clock X e (fw f)).
    - repeat split.
    - done.
  Qed.
  Lemma deep_never_runs (S : Serde M) (es : list (event M)) id :
    Forall (λ e, match core e with
      | EvEnqueue j _ => jid j = id → match ser (data j) with Some v => (126 < jdepth v)%nat | None => True end
      | _ => True end) es →
    ∀ j, j ∈ runs (sys_run prof sched name (text_h clock) (sys_init tworld_empty) es) → jid j ≠ id.
  Proof.
    intros H j Hj. destruct (text_histories S es) as (_ & Hr & _). rewrite Hr in Hj.
    rewrite mem_no_faults in Hj.
    refine (proj2 (@never_runs M (limited 126 S) prof sched name clock (λ _, FOk) id es _) j Hj).
    eapply list.Forall_impl; [exact H|]. intros e He. cbn beta in *. destruct (core e); try done.
    intros Hid. specialize (He Hid). unfold unreadable. cbn [ser de limited].
    destruct (ser (data j0)) as [v|]; [|done]. by rewrite (proj2 (Nat.leb_gt _ _)).
  Qed.
End histories.

Lemma any_backend {M} prof sched name (S : Serde M) {W} (h : handler W) s (es : list (event M)) :
  @sys_run M S prof sched name W (via_text h) s es = @sys_run M (limited 126 S) prof sched name W h s es ∧
  @responses M S prof sched name W (via_text h) s es = @responses M (limited 126 S) prof sched name W h s es.
Proof. split; [apply text_sys_run|apply text_responses]; try apply filt_enc; done. Qed.

Lemma chain_round_trip c : (@ser _ chain_serde c ≫= @de _ chain_serde) = Some c.
Proof. cbn. induction c as [|c IH]; [done|]. cbn in *. by rewrite IH. Qed.
Lemma chain_depth n : jdepth (chain_json (chain_of_depth n)) = n.
Proof.
  induction n as [|n IH]; [done|]. change (chain_of_depth (S n)) with (Link (chain_of_depth n)).
  cbn [chain_json jdepth map foldr]. rewrite IH. lia.
Qed.

Lemma deep_refuted :
  ∃ (M : Type) (S : Serde M) (j : job M),
    (∀ d : M, (ser d ≫= de) = Some d) ∧
    (let es := [EvStart; ev_run j] in
     @responses M S Debug demo_sched "q" _ (text_h demo_clock) (sys_init tworld_empty) es = [RNone; RUnit (Ok tt)] ∧
     qlist "q" (tw (sw (@sys_run M S Debug demo_sched "q" _ (text_h demo_clock) (sys_init tworld_empty) es))) Queued = [jid j]) ∧
    (∀ prof sched name clock (es : list (event M)),
       Forall (λ e, match core e with EvEnqueue j' _ => jid j' = jid j → data j' = data j | _ => True end) es →
       ∀ j', j' ∈ runs (@sys_run M S prof sched name _ (text_h clock) (sys_init tworld_empty) es) → jid j' ≠ jid j).
Proof.
  exists chain, chain_serde, (chain_job "a" 127). split; [apply chain_round_trip|]. split; [by vm_compute|].
  intros prof sched name clock es H. apply deep_never_runs. eapply list.Forall_impl; [exact H|]. intros e He.
  cbn beta in *. destruct (core e); try done. intros Hid. rewrite (He Hid). cbn [ser chain_serde chain_job data].
  rewrite chain_depth. apply Nat.leb_le. by vm_compute.
Qed.
