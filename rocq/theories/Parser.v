(** Model of preprocessor/parser.py: how log statements are found in a source
    file that went through g++ -E, and how their arguments are cut apart.
    Characters are numbers.  [lines] of the source are kept as one text: every
    line but the last ends with a newline, so a FilePosition is a position in the
    text.  Line numbers without a file name are those of parser.py. *)
From Verif Require Import Base Chars Fmt Preproc.

Definition c_quote := 34.  Definition c_lpar := 40.   Definition c_rpar := 41.
Definition c_comma := 44.  Definition c_lbrack := 91. Definition c_rbrack := 93.
Definition c_lcurly := 123. Definition c_rcurly := 125. Definition c_semi := 59.

(** parseArgumentStartingAt, 147-203: the argument's source ([arg]: the characters
    so far) and the text from the terminating comma or parenthesis on.  [None]:
    not found.  prevWasEscape is reset at the start of a line (164). *)
Fixpoint arg_scan (s : list Z) (paren curly bracket : Z) (inQuotes prevWasEscape : bool) (arg : list Z)
    : option (list Z * list Z) :=
  match s with
  | [] => None
  | c :: r =>
    let next p cu b q e := arg_scan r p cu b q (if c =? c_nl then false else e) (arg ++ [c]) in
    if (c =? c_bsl) || prevWasEscape then next paren curly bracket inQuotes (negb prevWasEscape)
    else
      let inQuotes := if c =? c_quote then negb inQuotes else inQuotes in
      if inQuotes then next paren curly bracket inQuotes false
      else if c =? c_lcurly then next paren (curly + 1) bracket inQuotes false
      else if c =? c_rcurly then next paren (curly - 1) bracket inQuotes false
      else if c =? c_lpar then next (paren + 1) curly bracket inQuotes false
      else if (c =? c_rpar) && (0 <? paren) then next (paren - 1) curly bracket inQuotes false
      else if c =? c_lbrack then next paren curly (bracket + 1) inQuotes false
      else if c =? c_rbrack then next paren curly (bracket - 1) inQuotes false
      else if ((c =? c_comma) || (c =? c_rpar)) && (curly =? 0) && (paren =? 0) && (bracket =? 0)
      then Some (arg, c :: r)
      else next paren curly bracket inQuotes false
  end.
Definition parseArgument (s : list Z) : option (list Z * list Z) := arg_scan s 0 0 0 false false [].

(** peekNextMeaningfulChar, 295-308: the text from that character on. *)
Fixpoint skip_space (s : list Z) : list Z :=
  match s with
  | [] => []
  | c :: r => if is_space c then skip_space r else s
  end.

(** The loop over the arguments, 239-249.  [s] starts with the opening
    parenthesis, a comma or the closing parenthesis.  Result: arguments, and the
    text from the closing parenthesis on.  [None]: ValueError. *)
Fixpoint args_loop (fuel : nat) (s : list Z) (args : list (list Z)) : option (list (list Z) * list Z) :=
  match fuel with
  | O => None
  | S f =>
    match s with
    | [] => None
    | c :: r =>
      if c =? c_rpar then Some (args, s)
      else match parseArgument r with
           | None => None
           | Some (a, s') => args_loop f s' (args ++ [a])
           end
    end
  end.

(** parseLogStatement, 226-272, for the text behind the name: the arguments and
    the text behind the semicolon. *)
Definition parseLogStatement (s : list Z) : option (list (list Z) * list Z) :=
  match skip_space s with
  | c :: r =>
    if c =? c_lpar then
      match args_loop (length s) (c :: r) [] with
      | Some (args, _ :: r') =>
        match skip_space r' with
        | d :: r'' => if d =? c_semi then Some (args, r'') else None
        | [] => None
        end
      | _ => None
      end
    else None
  | [] => None
  end.
