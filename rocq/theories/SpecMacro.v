(** The fragment of Rust that the expansion of #[job] uses: grammar and meaning. *)
From Verif Require Export Macro.

(** *** Grammar *)

(** Parameters: pattern ":" type, separated by commas, perhaps one at the end. *)
Definition parse_pat (l : list token) : option (pattern * list token) :=
  match l with
  | TPat :: l' => Some (POther, l')
  | _ =>
      let '(r, l1) := match l with TKw k :: l' => if String.eqb k "ref" then (true, l') else (false, l) | _ => (false, l) end in
      let '(m, l2) := match l1 with TKw k :: l' => if String.eqb k "mut" then (true, l') else (false, l1) | _ => (false, l1) end in
      match l2 with
      | TIdent x :: TPunct p :: TPat :: l3 =>
          if String.eqb p "@" then Some (PIdent r m x true, l3) else Some (PIdent r m x false, TPunct p :: TPat :: l3)
      | TIdent x :: l3 => Some (PIdent r m x false, l3)
      | _ => None
      end
  end.
Fixpoint parse_params_n (n : nat) (l : list token) : option (list (pattern * nat)) :=
  match n with
  | O => None
  | S n' =>
      match l with
      | [] => Some []
      | _ =>
          match parse_pat l with
          | Some (p, TPunct c :: TType ty :: rest) =>
              if String.eqb c ":" then
                match rest with
                | [] => Some [(p, ty)]
                | TPunct d :: rest' =>
                    if String.eqb d "," then cons (p, ty) <$> parse_params_n n' rest' else None
                | _ => None
                end
              else None
          | _ => None
          end
      end
  end.
Definition parse_params (l : list token) : option (list (pattern * nat)) := parse_params_n (S (length l)) l.

(** Fields of a struct: "pub" identifier ":" type. *)
Fixpoint parse_fields (l : list token) : option (list (string * nat)) :=
  match l with
  | [] => Some []
  | [TKw k; TIdent x; TPunct c; TType ty] =>
      if String.eqb k "pub" && String.eqb c ":" then Some [(x, ty)] else None
  | TKw k :: TIdent x :: TPunct c :: TType ty :: TPunct d :: l' =>
      if String.eqb k "pub" && String.eqb c ":" && String.eqb d "," then cons (x, ty) <$> parse_fields l' else None
  | _ => None
  end.
(** Variables, as arguments of a call or as fields of a struct literal. *)
Fixpoint parse_names (l : list token) : option (list string) :=
  match l with
  | [] => Some []
  | [TIdent x] => Some [x]
  | TIdent x :: TPunct d :: l' => if String.eqb d "," then cons x <$> parse_names l' else None
  | _ => None
  end.
(** Arguments of the form self.x.clone(). *)
Fixpoint parse_clones (l : list token) : option (list string) :=
  match l with
  | [] => Some []
  | TKw s :: TPunct d1 :: TIdent x :: TPunct d2 :: TIdent c :: TParens :: rest =>
      if String.eqb s "self" && String.eqb d1 "." && String.eqb d2 "." && String.eqb c "clone" then
        match rest with
        | [] => Some [x]
        | TPunct d :: l' => if String.eqb d "," then cons x <$> parse_clones l' else None
        | _ => None
        end
      else None
  | _ => None
  end.

(** *** Meaning *)

(** The variables bound by parameters; only identifier patterns bind a known variable. *)
Definition binders (ps : list (pattern * nat)) : option (list string) :=
  mapM (λ '(p, _), match p with PIdent _ _ x false => Some x | _ => None end) ps.
(** A call with values [vs]. *)
Definition bind_params {V} (ps : list (pattern * nat)) (vs : list V) : option (list (string * V)) :=
  xs ← binders ps;
  if decide (length xs = length vs ∧ NoDup xs) then Some (zip xs vs) else None.
Fixpoint var {V} (env : list (string * V)) (x : string) : option V :=
  match env with
  | [] => None
  | (y, v) :: env' => if String.eqb x y then Some v else var env' x
  end.

(** The code behind run, just_run (new_params, literal as in the generated `new`): the value of the
    struct, as a map from field to value. *)
Definition make_struct {V} (e : expansion) (params : list token) (extra vs : list V) : option (list (string * V)) :=
  ps ← parse_params params;
  env ← bind_params ps (vs ++ extra);
  args ← parse_names (e_new_args e);
  vals ← mapM (var env) args;
  nps ← parse_params (e_new_params e);
  nenv ← bind_params nps vals;
  fs ← parse_fields (e_fields e);
  lits ← parse_names (e_literal e);
  (* a struct literal names every field once *)
  if decide (lits ≡ₚ map fst fs ∧ NoDup (map fst fs)) then mapM (λ x, v ← var nenv x; Some (x, v)) lits else None.
(** The arguments execute passes to the function. *)
Definition call_args {V} (e : expansion) (self : list (string * V)) : option (list V) :=
  xs ← parse_clones (e_call e); mapM (var self) xs.

(** run(vs) followed by execute passes [vs] to the function; the same with a context. *)
Definition faithful {V} (e : expansion) (vs : list V) (ctx : V) : Prop :=
  (∃ st, make_struct e (e_run_params e) [] vs = Some st ∧ call_args e st = Some vs) ∧
  (∃ st, make_struct e (e_ctx_params e) [ctx] vs = Some st ∧ call_args e st = Some vs).

(** Every part of the expansion is grammatical, and parameters are distinct. *)
Definition distinct_binders (l : list token) : Prop :=
  ∃ ps, parse_params l = Some ps ∧
    NoDup (omap (λ p : pattern * nat, match p.1 with PIdent _ _ x _ => Some x | POther => None end) ps).
Definition grammatical (e : expansion) : Prop :=
  is_Some (parse_fields (e_fields e)) ∧ is_Some (parse_clones (e_call e)) ∧
  is_Some (parse_names (e_literal e)) ∧ is_Some (parse_names (e_new_args e)) ∧
  distinct_binders (e_new_params e) ∧ distinct_binders (e_run_params e) ∧ distinct_binders (e_ctx_params e).
(** The call passes as many arguments as the function has. *)
Definition arity_ok (f : fn_sig) (e : expansion) : Prop :=
  (length <$> parse_clones (e_call e)) = Some (length (f_args f)).

(** The functions for which #[job] works. *)
Definition plain_arg (a : fn_arg) (x : string) : Prop := ∃ ty, a = Typed (PIdent false false x false) ty.
Definition supported (f : fn_sig) : Prop :=
  f_args f ≠ [] ∧ f_trailing f = false ∧
  ∃ xs, Forall2 plain_arg (f_args f) xs ∧ NoDup xs ∧ "context" ∉ xs.
