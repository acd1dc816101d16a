(** JSON text: serde_json's `to_string` and `from_str` (called in aj_core/src/backend/types.rs:51 and 66)
    for the JSON values of Json.v.
    Simplifications: a string is its bytes.  The reader takes what the writer writes; text that is never written
    (white space, fractions and exponents, \u escapes beyond 007f or with capitals, \/) it refuses.
    Integers have no bounds (see Json.v). *)
From Coq Require Import Ascii DecimalString.
From Verif Require Export Backend.

Definition text := list ascii.
Definition chars (s : string) : text := list_ascii_of_string s.
Definition code (c : ascii) : nat := nat_of_ascii c.
Notation "c =? d" := (Ascii.eqb c d) : char_scope.

Definition quote : ascii := "034".
Definition bslash : ascii := "\".

(** ** Writing (serde_json, CompactFormatter) *)

Definition hex (n : nat) : ascii := ascii_of_nat (if (n <? 10)%nat then 48 + n else 87 + n).
(** Escapes of a string's bytes. *)
Definition escape (c : ascii) : text :=
  if (c =? quote)%char then [bslash; quote]
  else if (c =? bslash)%char then [bslash; bslash]
  else if (code c =? 8)%nat then [bslash; "b"%char]
  else if (code c =? 9)%nat then [bslash; "t"%char]
  else if (code c =? 10)%nat then [bslash; "n"%char]
  else if (code c =? 12)%nat then [bslash; "f"%char]
  else if (code c =? 13)%nat then [bslash; "r"%char]
  else if (code c <? 32)%nat then chars "\u00" ++ [hex (code c / 16); hex (code c mod 16)]
  else [c].
Definition write_str (s : string) : text := quote :: concat (map escape (chars s)) ++ [quote].
Definition write_num (z : Z) : text := chars (NilZero.string_of_int (Z.to_int z)).
Fixpoint comma_list (l : list text) : text :=
  match l with
  | [] => []
  | [x] => x
  | x :: l' => x ++ ","%char :: comma_list l'
  end.
Fixpoint write (v : json) : text :=
  match v with
  | JNull => chars "null"
  | JBool true => chars "true"
  | JBool false => chars "false"
  | JNum z => write_num z
  | JStr s => write_str s
  | JArr l => "["%char :: comma_list (map write l) ++ ["]"%char]
  | JObj l => "{"%char :: comma_list (map (λ '(k, v), write_str k ++ ":"%char :: write v) l) ++ ["}"%char]
  end.

(** ** Reading *)

Definition unhex (c : ascii) : option nat :=
  let n := code c in
  if (48 <=? n)%nat && (n <=? 57)%nat then Some (n - 48)%nat
  else if (97 <=? n)%nat && (n <=? 102)%nat then Some (n - 87)%nat
  else None.
Definition unescape (c : ascii) : option ascii :=
  if (c =? quote)%char then Some quote
  else if (c =? bslash)%char then Some bslash
  else if (c =? "b")%char then Some (ascii_of_nat 8)
  else if (c =? "t")%char then Some (ascii_of_nat 9)
  else if (c =? "n")%char then Some (ascii_of_nat 10)
  else if (c =? "f")%char then Some (ascii_of_nat 12)
  else if (c =? "r")%char then Some (ascii_of_nat 13)
  else None.
(** The rest of a string after its opening quote, and what follows it. *)
Fixpoint read_str (s : text) : option (string * text) :=
  match s with
  | [] => None
  | c :: s' =>
      if (c =? quote)%char then Some (EmptyString, s')
      else if (c =? bslash)%char then
        match s' with
        | [] => None
        | e :: s'' =>
            if (e =? "u")%char then
              match s'' with
              | h1 :: h2 :: h3 :: h4 :: s3 =>
                  if (h1 =? "0")%char && (h2 =? "0")%char then
                    match unhex h3, unhex h4, read_str s3 with
                    | Some a, Some b, Some (r, t) =>
                        if (a <? 8)%nat then Some (String (ascii_of_nat (16 * a + b)) r, t) else None
                    | _, _, _ => None
                    end
                  else None
              | _ => None
              end
            else match unescape e, read_str s'' with
                 | Some c', Some (r, t) => Some (String c' r, t)
                 | _, _ => None
                 end
        end
      else if (code c <? 32)%nat then None
      else match read_str s' with Some (r, t) => Some (String c r, t) | None => None end
  end.

Definition num_char (c : ascii) : bool := (c =? "-")%char || ((48 <=? code c)%nat && (code c <=? 57)%nat).
(** The longest prefix of characters of a number. *)
Fixpoint span_num (s : text) : text * text :=
  match s with
  | c :: s' => if num_char c then let (a, b) := span_num s' in (c :: a, b) else ([], s)
  | [] => ([], [])
  end.
(** No leading zeros; -0 would be a float. *)
Definition read_num (s : text) : option (Z * text) :=
  let (a, b) := span_num s in
  match NilZero.int_of_string (string_of_list_ascii a) with
  | Some d => if bool_decide (write_num (Z.of_int d) = a) then Some (Z.of_int d, b) else None
  | None => None
  end.
Definition read_word (w : string) (v : json) (s : text) : option (json * text) :=
  if bool_decide (take (String.length w) s = chars w) then Some (v, drop (String.length w) s) else None.

(** A value, the elements of an array after its first bracket, the members of an object after its brace.
    [d]: how much deeper arrays and objects may be nested: serde_json's `remaining_depth`, which stops at 1 from
    128.  [fuel] is only there for the termination check. *)
Fixpoint read_value (fuel d : nat) (s : text) {struct fuel} : option (json * text) :=
  match fuel, s with
  | S f, c :: s' =>
      if (c =? quote)%char then
        match read_str s' with Some (r, t) => Some (JStr r, t) | None => None end
      else if (c =? "[")%char then
        match d with
        | O => None
        | S d' =>
            match s' with
            | [] => None
            | c' :: t => if (c' =? "]")%char then Some (JArr [], t)
                         else match read_elems f d' s' with Some (l, t) => Some (JArr l, t) | None => None end
            end
        end
      else if (c =? "{")%char then
        match d with
        | O => None
        | S d' =>
            match s' with
            | [] => None
            | c' :: t => if (c' =? "}")%char then Some (JObj [], t)
                         else match read_members f d' s' with Some (l, t) => Some (JObj l, t) | None => None end
            end
        end
      else if (c =? "n")%char then read_word "null" JNull s
      else if (c =? "t")%char then read_word "true" (JBool true) s
      else if (c =? "f")%char then read_word "false" (JBool false) s
      else match read_num s with Some (z, t) => Some (JNum z, t) | None => None end
  | _, _ => None
  end
with read_elems (fuel d : nat) (s : text) {struct fuel} : option (list json * text) :=
  match fuel with
  | O => None
  | S f =>
      match read_value f d s with
      | Some (v, c :: t) =>
          if (c =? ",")%char then
            match read_elems f d t with Some (l, t') => Some (v :: l, t') | None => None end
          else if (c =? "]")%char then Some ([v], t) else None
      | _ => None
      end
  end
with read_members (fuel d : nat) (s : text) {struct fuel} : option (list (string * json) * text) :=
  match fuel, s with
  | S f, q :: s' =>
      if (q =? quote)%char then
        match read_str s' with
        | Some (k, c0 :: s1) =>
            if (c0 =? ":")%char then
              match read_value f d s1 with
              | Some (v, c :: t) =>
                  if (c =? ",")%char then
                    match read_members f d t with Some (l, t') => Some ((k, v) :: l, t') | None => None end
                  else if (c =? "}")%char then Some ([(k, v)], t) else None
              | _ => None
              end
            else None
        | _ => None
        end
      else None
  | _, _ => None
  end.

Definition json_to_string (v : json) : string := string_of_list_ascii (write v).
(** `from_str` refuses trailing characters. *)
Definition json_from_str (s : string) : option json :=
  let t := chars s in
  match read_value (2 * length t) 127 t with Some (v, []) => Some v | _ => None end.

(** ** The in-memory backend with the text it really holds *)

(** types.rs:51: `serde_json::to_string(&value).unwrap_or("".into())`. *)
Definition to_text (v : value) : string := match v with Some j => json_to_string j | None => "" end.
(** types.rs:64-68: `serde_json::from_str(&value).ok()`; on the JSON level (the fields are read in Json.v). *)
Definition of_text (s : string) : value := json_from_str s.

(** mem.rs:9-13 with its strings.  [tw] holds the queues, the clock readings and the messages. *)
Record tworld := TWorld { tw : world; texts : gmap string (gmap string string) }.
Definition tworld_empty : tworld := TWorld world_empty ∅.
(** mem.rs:117-127, 129-136. *)
Definition text_upsert (m : gmap string (gmap string string)) (hash key s : string) : gmap string (gmap string string) :=
  match m !! hash with
  | Some h => <[hash := <[key := s]> h]> m
  | None => <[hash := {[key := s]}]> m
  end.
Definition text_get (m : gmap string (gmap string string)) (hash key : string) : option string :=
  match m !! hash with Some h => h !! key | None => None end.
Definition text_h (clock : nat → time) : handler tworld := λ X e,
  match e in eff X return tworld → tworld * X with
  | SUpsert h k v => λ t, (TWorld (tw t) (text_upsert (texts t) h k (to_text v)), Ok tt)
  | SGet h k => λ t, (t, Ok (of_text <$> text_get (texts t) h k))
  | e => λ t, let (w, x) := mem_h clock _ e (tw t) in (TWorld w (texts t), x)
  end.

(** Any backend, with values that went through their text. *)
Definition via_text {W} (h : handler W) : handler W := λ X e,
  match e in eff X return W → W * X with
  | SUpsert hh k v => h _ (SUpsert hh k (of_text (to_text v)))
  | e => h _ e
  end.
