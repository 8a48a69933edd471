(** Character constants and string literals for the text level models. *)
From Coq Require String Ascii.
Export Coq.Strings.String.StringSyntax.
From Verif Require Import Base.
Open Scope Z_scope.

(** The characters of a literal as numbers. *)
Fixpoint chars (s : String.string) : list Z :=
  match s with
  | String.EmptyString => []
  | String.String c r => Z.of_nat (Ascii.nat_of_ascii c) :: chars r
  end.

Arguments chars s%string_scope.

Definition c_pct := 37.    (* % *)
Definition c_star := 42.   (* * *)
Definition c_dot := 46.    (* . *)
Definition c_bsl := 92.    (* \ *)
Definition c_nl := 10.

Definition mem_char (c : Z) (l : list Z) : bool := existsb (Z.eqb c) l.

(** Longest prefix satisfying a predicate, and the rest. *)
Fixpoint span (f : Z -> bool) (s : list Z) : list Z * list Z :=
  match s with
  | c :: r => if f c then let '(a, b) := span f r in (c :: a, b) else ([], s)
  | [] => ([], [])
  end.

(** Character at the front; a C string ends in NUL. *)
Definition hd0 (s : list Z) : Z := hd 0 s.

Definition is_dig (c : Z) : bool := (48 <=? c) && (c <=? 57).
