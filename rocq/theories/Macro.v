(** The #[job] attribute (aj_macro/src/lib.rs:28-176) and the BackgroundJob derive
    (aj_macro/src/lib.rs:8-26), on the level of tokens. *)
From Verif Require Export Types.

(** What the macro sees of a function (syn::ItemFn).  Types are opaque (numbers): interpolating a
    syn::Type and parsing it again gives the same type.  Patterns other than identifiers are opaque. *)
Inductive pattern :=
  | PIdent (by_ref is_mut : bool) (x : string) (sub : bool)     (* Pat::Ident: `ref mut x @ ..` *)
  | POther.
Inductive fn_arg := Receiver | Typed (p : pattern) (ty : nat).
Record fn_sig := FnSig {
  f_name : string;
  f_async : bool;
  f_args : list fn_arg;
  f_trailing : bool;             (* a comma after the last argument *)
}.

Inductive token :=
  | TIdent (x : string)
  | TKw (k : string)             (* pub ref mut self *)
  | TPunct (p : string)
  | TType (ty : nat)
  | TPat                         (* a pattern that is not an identifier *)
  | TParens.                     (* an empty pair of parentheses *)

(** Interpolation of a pattern. *)
Definition pat_tokens (p : pattern) : list token :=
  match p with
  | PIdent r m x s =>
      (if r then [TKw "ref"] else []) ++ (if m then [TKw "mut"] else []) ++ [TIdent x] ++
      (if s then [TPunct "@"; TPat] else [])
  | POther => [TPat]
  end.
Definition arg_tokens (a : fn_arg) : list token :=
  match a with
  | Receiver => [TKw "self"]
  | Typed p ty => pat_tokens p ++ [TPunct ":"; TType ty]
  end.
(** #(...),* *)
Fixpoint commas (l : list (list token)) : list token :=
  match l with
  | [] => []
  | [x] => x
  | x :: l' => x ++ TPunct "," :: commas l'
  end.
(** #fn_inputs: a Punctuated, with its trailing comma (lib.rs:33). *)
Definition fn_inputs (f : fn_sig) : list token :=
  commas (map arg_tokens (f_args f)) ++
  (if f_trailing f && negb (Nat.eqb (length (f_args f)) 0) then [TPunct ","] else []).

(** lib.rs:46-61, 64-79, 81-94: only typed identifier patterns are kept; `ident` is the whole
    Pat::Ident. *)
Definition kept (f : fn_sig) : list (pattern * nat) :=
  omap (λ a, match a with Typed (PIdent r m x s) ty => Some (PIdent r m x s, ty) | _ => None end) (f_args f).
Definition input_fields (f : fn_sig) : list token :=
  commas (map (λ '(p, ty), TKw "pub" :: pat_tokens p ++ [TPunct ":"; TType ty]) (kept f)).
Definition struct_as_args (f : fn_sig) : list token :=
  commas (map (λ '(p, _), [TKw "self"; TPunct "."] ++ pat_tokens p ++ [TPunct "."; TIdent "clone"; TParens]) (kept f)).
Definition input_names (f : fn_sig) : list token :=
  commas (map (λ '(p, _), pat_tokens p) (kept f)).

(** The type aj::JobContext. *)
Definition context_type : nat := 0.
(** The places of the expansion that depend on the arguments (lib.rs:111-173). *)
Record expansion := Expansion {
  e_fields : list token;         (* pub struct #job_struct_name { .. }      lib.rs:127-129 *)
  e_call : list token;           (* #fn_name(..) in execute                 lib.rs:101-109, 139 *)
  e_new_params : list token;     (* fn new(..)                              lib.rs:144 *)
  e_literal : list token;        (* Self { .. }                             lib.rs:145-147 *)
  e_run_params : list token;     (* run(..), just_run(..)                   lib.rs:151, 157 *)
  e_new_args : list token;       (* #job_struct_name::new(..)               lib.rs:152, 158, 163, 169 *)
  e_ctx_params : list token;     (* run_with_context(..), just_run_with_context(..)  lib.rs:162, 168 *)
}.
Definition expand (f : fn_sig) : expansion :=
  Expansion (input_fields f) (struct_as_args f) (fn_inputs f) (input_names f) (fn_inputs f) (input_names f)
    (fn_inputs f ++ [TPunct ","; TIdent "context"; TPunct ":"; TType context_type]).

(** lib.rs:40-43, 13-16: the queue name is "Job" and the function name in Pascal case (crate
    convert_case, here any function). *)
Definition queue_name_of (pascal : string → string) (f : fn_sig) : string := "Job" +:+ pascal (f_name f).

(** util/mod.rs:15-17: `Utc.timestamp_nanos(ms * 1_000_000)`; the product is an i64. *)
Definition i64_min : Z := - 2 ^ 63.
Definition i64_max : Z := 2 ^ 63 - 1.
Definition in_i64 (z : Z) : bool := (i64_min <=? z) && (z <=? i64_max).
Definition i64_wrap (z : Z) : Z := (z + 2 ^ 63) mod 2 ^ 64 - 2 ^ 63.
(** None: panic. *)
Definition get_ms_as_datetime (prof : profile) (ms : Z) : option time :=
  if in_i64 (ms * 1000000) then Some (ms * 1000000)
  else match prof with Debug => None | Release => Some (i64_wrap (ms * 1000000)) end.
