(** Specification vocabulary for JSON text. *)
From Coq Require Import Ascii DecimalString.
From Verif Require Export Text.

(** ** Which text stands for which value (RFC 8259, without what is never written: see Text.v) *)

(** What stands between quotes for a string. *)
Definition hex_digit (c : ascii) (n : nat) : Prop := list_ascii_of_string "0123456789abcdef" !! n = Some c.
Inductive spells : text → string → Prop :=
  | spells_end : spells [] EmptyString
  | spells_plain c t s :
      (32 ≤ nat_of_ascii c)%nat → c ≠ "034"%char → c ≠ "\"%char → spells t s → spells (c :: t) (String c s)
  | spells_short e c t s :
      In (e, c) [("034", "034"); ("\", "\"); ("b", "008"); ("f", "012"); ("n", "010"); ("r", "013"); ("t", "009")]%char →
      spells t s → spells ("\"%char :: e :: t) (String c s)
  | spells_hex a b n m t s :
      hex_digit a n → hex_digit b m → (n < 8)%nat → spells t s →
      spells ("\" :: "u" :: "0" :: "0" :: a :: b :: t)%char (String (ascii_of_nat (16 * n + m)) s).
Inductive denotes : text → json → Prop :=
  | denotes_null : denotes (list_ascii_of_string "null") JNull
  | denotes_true : denotes (list_ascii_of_string "true") (JBool true)
  | denotes_false : denotes (list_ascii_of_string "false") (JBool false)
  | denotes_num z : denotes (list_ascii_of_string (NilZero.string_of_int (Z.to_int z))) (JNum z)
  | denotes_str t s : spells t s → denotes ("034"%char :: t ++ ["034"%char]) (JStr s)
  | denotes_empty_arr : denotes ["["; "]"]%char (JArr [])
  | denotes_arr t l : denotes_elems t l → denotes ("["%char :: t ++ ["]"%char]) (JArr l)
  | denotes_empty_obj : denotes ["{"; "}"]%char (JObj [])
  | denotes_obj t l : denotes_members t l → denotes ("{"%char :: t ++ ["}"%char]) (JObj l)
with denotes_elems : text → list json → Prop :=
  | elems_one t v : denotes t v → denotes_elems t [v]
  | elems_more t v t' l : denotes t v → denotes_elems t' l → denotes_elems (t ++ ","%char :: t') (v :: l)
with denotes_members : text → list (string * json) → Prop :=
  | members_one k s t v :
      spells k s → denotes t v → denotes_members ("034"%char :: k ++ "034"%char :: ":"%char :: t) [(s, v)]
  | members_more k s t v t' l :
      spells k s → denotes t v → denotes_members t' l →
      denotes_members ("034"%char :: k ++ "034"%char :: ":"%char :: t ++ ","%char :: t') ((s, v) :: l).

(** How deeply arrays and objects are nested. *)
Fixpoint jdepth (v : json) : nat :=
  match v with
  | JArr l => S (foldr Nat.max 0%nat (map jdepth l))
  | JObj l => S (foldr Nat.max 0%nat (map (λ '(_, v), jdepth v) l))
  | _ => 0%nat
  end.

(** The payload type with values nested deeper than [n] left out: their serialization fails. *)
Definition limited (n : nat) {M} (S : Serde M) : Serde M :=
  {| ser := λ m, match ser m with
                 | Some v => if (jdepth v <=? n)%nat then Some v else None
                 | None => None
                 end;
     de := de |}.

(** A payload type whose values are nested: `enum Chain { End, Link(Box<Chain>) }` as nested arrays. *)
Inductive chain := End | Link (c : chain).
Fixpoint chain_json (c : chain) : json := match c with End => JNull | Link c => JArr [chain_json c] end.
Fixpoint chain_of (v : json) {struct v} : option chain :=
  match v with
  | JNull => Some End
  | JArr (v :: _) => match chain_of v with Some c => Some (Link c) | None => None end
  | _ => None
  end.
Definition chain_serde : Serde chain := {| ser := λ c, Some (chain_json c); de := chain_of |}.
Definition chain_of_depth (n : nat) : chain := Nat.iter n Link End.
Definition chain_job (id : string) (n : nat) : job chain :=
  Job (Context_ id Normal Queued None 0 None None None None 0) (chain_of_depth n).
