(** Specification for C52 and C53: source files with log statements, and what the
    preprocessor is to make of them. *)
From Coq Require Import String.
From Verif Require Import Base Chars Fmt Preproc PreprocLit Prop_Parser.
Local Open Scope list_scope.

Definition log_function : list Z := chars "NANO_LOG".

(** A call behind the name: white space, arguments, white space; the semicolon
    follows. *)
Record call := Call { k_sp : list Z; k_level : list tok; k_fmt : list tok; k_more : list (list tok); k_sp' : list Z }.
Definition k_src (k : call) : list Z := call_src (k_sp k) (k_level k) (k_fmt k) (k_more k) (k_sp' k).

(** The text of a format's string literals. *)
Definition lit_text (l : list tok) : list Z :=
  flat_map (fun t => match t with TStr s => body_src s | _ => [] end) l.

(** A source file after g++ -E: line markers; the last line of RuntimeLogger.h;
    lines of code: statements with the code in front of them, the rest of the
    line. *)
Inductive group :=
| GDir (n : Z) (file flags : list Z)
| GMark (pre post : list Z)
| GCode (parts : list (list tok * call)) (rest : list tok).

Definition quoted (s : list Z) : list Z := 34 :: s ++ [34].
Definition marker_line : list Z :=
  chars "static const int __internal_dummy_variable_marker_for_code_injection = 0;".

Fixpoint code_src (parts : list (list tok * call)) (rest : list tok) : list Z :=
  match parts with
  | [] => toks_src rest ++ [10]
  | (pre, k) :: r => toks_src pre ++ log_function ++ k_src k ++ code_src r rest
  end.
Definition group_src (g : group) : list Z :=
  match g with
  | GDir n file flags => chars "# " ++ dec_str n ++ [32] ++ quoted file ++ flags ++ [10]
  | GMark pre post => pre ++ marker_line ++ post ++ [10]
  | GCode parts rest => code_src parts rest
  end.
Definition file_src (l : list group) : list Z := flat_map group_src l.

(** ** Positions: file and line, by the line markers *)

Definition nls (s : list Z) : Z := zlen (filter (Z.eqb 10) s).

(** The line and the column behind [s], when [s] starts at column [p]. *)
Fixpoint column (p : nat) (s : list Z) : nat :=
  match s with
  | [] => p
  | c :: r => column (if c =? 10 then O else S p) r
  end.

Definition next_pos (pos : list Z * Z) (g : group) : list Z * Z :=
  match g with
  | GDir n file _ => (file, n)
  | _ => (fst pos, snd pos + nls (group_src g))
  end.

(** The statements of a file, with the position of their name. *)
Fixpoint code_stmts (file : list Z) (n : Z) (parts : list (list tok * call)) : list stmt :=
  match parts with
  | [] => []
  | (pre, k) :: r =>
    Stmt (toks_src (k_level k)) (lit_text (k_fmt k)) file (n + nls (toks_src pre))
      :: code_stmts file (n + nls (toks_src pre ++ k_src k)) r
  end.
Fixpoint file_stmts (pos : list Z * Z) (l : list group) : list stmt :=
  match l with
  | [] => []
  | g :: r => match g with GCode parts _ => code_stmts (fst pos) (snd pos) parts | _ => [] end
              ++ file_stmts (next_pos pos g) r
  end.

(** ** What takes the place of the code *)

(** The generated function's name. *)
Definition fn_name (s : stmt) : list Z := chars "__syang0__fl" ++ log_id (st_fmt s) (st_file s) (st_line s).
Definition marker_at (n : Z) (file : list Z) : list Z := chars "# " ++ dec_str n ++ [32] ++ quoted file ++ [13; 10].
Definition blanks (n : nat) : list Z := repeat 32 n.

(** The name gives way to an opened block and the function's name, on lines of
    their own with a fake position; the block is closed on a line of its own; what
    follows goes on at its line and column. *)
Fixpoint code_out (file : list Z) (n : Z) (p : nat) (parts : list (list tok * call)) (rest : list tok) : list Z :=
  match parts with
  | [] => toks_src rest ++ [10]
  | (pre, k) :: r =>
    let n0 := n + nls (toks_src pre) in
    let n1 := n0 + nls (k_src k) in
    let p1 := column p (toks_src pre ++ log_function ++ k_src k) in
    toks_src pre
      ++ [13; 10] ++ marker_at n0 (chars "injectedCode.fake")
      ++ chars "{ " ++ fn_name (Stmt (toks_src (k_level k)) (lit_text (k_fmt k)) file n0)
      ++ [13; 10] ++ marker_at n0 file
      ++ blanks (column p (toks_src pre ++ log_function)) ++ k_src k
      ++ [13; 10] ++ [125; 13; 10] ++ marker_at n1 file
      ++ blanks p1 ++ code_out file n1 p1 r rest
  end.
Definition group_out (pos : list Z * Z) (g : group) : list Z :=
  match g with
  | GCode parts rest => code_out (fst pos) (snd pos) 0 parts rest
  | _ => group_src g
  end.
Fixpoint file_out (pos : list Z * Z) (l : list group) : list Z :=
  match l with
  | [] => []
  | g :: r => group_out pos g ++ file_out (next_pos pos g) r
  end.

(** ** Well-formed files *)

(** Tokens; the lines were joined, so no newlines in literals. *)
Definition elem_line (e : celem) : bool := match e with Ch c | Esc c => negb (c =? 10) end.
Definition lexed (t : tok) : bool :=
  match t with
  | TStr l => forallb elem_ok l && forallb elem_line l
  | TChr l => forallb chr_ok l && forallb elem_line l
  | TC c => negb (mem_char c syntax)
  | _ => true
  end.

(** The code without the contents of its literals. *)
Definition bare_src (t : tok) : list Z :=
  match t with TStr _ => [34; 34] | TChr _ => [39; 39] | _ => tok_src t end.

(** [x] occurs in [s] / as an identifier of its own, [prev] being the character in
    front. *)
Fixpoint begins (x s : list Z) : bool :=
  match x, s with
  | [], _ => true
  | a :: x', c :: s' => (c =? a) && begins x' s'
  | _ :: _, [] => false
  end.
Fixpoint within (x s : list Z) : bool :=
  begins x s || match s with [] => false | _ :: r => within x r end.
Definition ident_char (c : Z) : bool := is_alnum c || (c =? 95).
Fixpoint uses (x : list Z) (prev : Z) (s : list Z) : bool :=
  (begins x s && negb (ident_char prev) && negb (ident_char (hd 0 (skipn (length x) s))))
  || match s with [] => false | c :: r => uses x c r end.

(** Code without a log statement. *)
Definition no_stmt (l : list tok) : Prop :=
  forallb lexed l = true /\ uses log_function 0 (flat_map bare_src l) = false.

Definition call_toks (k : call) : list tok := k_level k ++ TComma :: k_fmt k ++ TComma :: flat_map (fun a => a ++ [TComma]) (k_more k).
Definition call_wf (k : call) : Prop :=
  forallb is_space (k_sp k) = true /\ forallb is_space (k_sp' k) = true /\
  nested false (k_level k) /\ nested false (k_fmt k) /\ Forall (nested false) (k_more k) /\
  no_stmt (call_toks k).

(** The code in front of a statement is on its line and does not run into the
    name. *)
Definition before_wf (pre : list tok) : Prop :=
  no_stmt pre /\ nls (toks_src pre) = 0 /\ ident_char (last (toks_src pre) 0) = false.

(** Formats the preprocessor supports (see C42 and C43). *)
Definition fmt_wf (k : call) : Prop :=
  extractCString (toks_src (k_fmt k)) = Some (lit_text (k_fmt k)) /\ lit_text (k_fmt k) <> [] /\
  splitAndParse (lit_text (k_fmt k)) <> None.

Definition file_name_wf (f : list Z) : Prop := ~ In 34 f /\ ~ In 10 f.

(** Lines of code that start with a hash are no C++ behind g++ -E. *)
Definition group_wf (g : group) : Prop :=
  match g with
  | GDir n file flags => 0 <= n /\ file_name_wf file /\ ~ In 34 flags /\ ~ In 10 flags
  | GMark pre post => ~ In 10 pre /\ ~ In 10 post /\ hd 0 (pre ++ marker_line) <> 35
  | GCode parts rest =>
    Forall (fun '(pre, k) => before_wf pre /\ call_wf k /\ fmt_wf k) parts /\
    no_stmt rest /\ nls (toks_src rest) = 0 /\
    within [10; 35] (10 :: code_src parts rest) = false /\ within marker_line (code_src parts rest) = false
  end.

(** The file starts with its own name; RuntimeLogger.h comes before the statements. *)
Definition stmt_free (g : group) : Prop := match g with GCode (_ :: _) _ | GMark _ _ => False | _ => True end.
Definition markless (g : group) : Prop := match g with GMark _ _ => False | _ => True end.
Definition file_wf (file flags : list Z) (l1 : list group) (pre post : list Z) (l2 : list group) : Prop :=
  Forall group_wf (GDir 1 file flags :: l1 ++ GMark pre post :: l2) /\ Forall stmt_free l1 /\ Forall markless l2.
