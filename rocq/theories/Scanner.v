(** Model of processFile in preprocessor/parser.py (323-584): how log statements
    are found in a source file that went through g++ -E, and how calls of the
    generated functions take their place.  Characters are numbers.  Line numbers
    without a file name are those of parser.py. *)
From Coq Require Import String.
From Verif Require Import Base Chars Fmt Preproc Parser.
Local Open Scope list_scope.

Definition c_hash := 35.
Definition c_sp := 32.
Definition crlf : list Z := [13; 10].
Definition qt : list Z := [34].

(** LOG_FUNCTION, 75, and INJECTION_MARKER, 81-82. *)
Definition name : list Z := chars "NANO_LOG".
Definition marker_text : list Z :=
  chars "static const int __internal_dummy_variable_marker_for_code_injection = 0;".

(** [startswith] and [x in s]. *)
Fixpoint starts (p s : list Z) : bool :=
  match p, s with
  | [], _ => true
  | x :: p', c :: s' => (c =? x) && starts p' s'
  | _ :: _, [] => false
  end.
Fixpoint occurs (p s : list Z) : bool :=
  starts p s || match s with [] => false | _ :: r => occurs p r end.

(** The comparison of 413-417, for the line from charOffset on.  [None]:
    IndexError, at the end of a line without newline. *)
Fixpoint match_name (p s : list Z) : option bool :=
  match p, s with
  | [], _ => Some true
  | x :: p', c :: s' => if c =? x then match_name p' s' else Some false
  | _ :: _, [] => None
  end.

(** readlines. *)
Fixpoint split_lines (s : list Z) : list (list Z) :=
  match s with
  | [] => []
  | c :: r =>
    if c =? c_nl then [c] :: split_lines r
    else match split_lines r with
         | [] => [[c]]
         | l :: ls => (c :: l) :: ls
         end
  end.

(** directiveRegex, 325: a hash, a space, digits, a space and text in quotes at
    the start of the line; the result is the number and the file name.  The name
    goes to the last quote of the line; a line has no newline but at its end.
    [int(float(...))], 364, is exact below 2^53. *)
Fixpoint digits (s : list Z) (acc : Z) (seen : bool) : option (Z * list Z) :=
  match s with
  | [] => if seen then Some (acc, []) else None
  | c :: r => if in_rng 48 57 c then digits r (acc * 10 + (c - 48)) true
              else if seen then Some (acc, s) else None
  end.
Fixpoint to_last_quote (s : list Z) : option (list Z) :=
  match s with
  | [] => None
  | c :: r => match to_last_quote r with
              | Some f => Some (c :: f)
              | None => if c =? c_quote then Some [] else None
              end
  end.
Definition directive (line : list Z) : option (Z * list Z) :=
  match line with
  | h :: b :: r =>
    if (h =? c_hash) && (b =? c_sp) then
      match digits r 0 false with
      | Some (n, b' :: q :: r') =>
        if (b' =? c_sp) && (q =? c_quote) then option_map (fun f => (n, f)) (to_last_quote r') else None
      | _ => None
      end
    else None
  | _ => None
  end.

(** The line and the offset of the [n]-th character of [lines]: the lines before
    it, its line, the offset in it, the lines behind it. *)
Fixpoint locate (n : nat) (lines : list (list Z)) : option (list (list Z) * list Z * nat * list (list Z)) :=
  match lines with
  | [] => None
  | l :: ls =>
    if Nat.ltb n (length l) then Some ([], l, n, ls)
    else match locate (n - length l) ls with
         | Some (b, x, o, a) => Some (l :: b, x, o, a)
         | None => None
         end
  end.

(** ** The loop *)

(** In a line, 393-553: the variables line, charOffset + 1, inQuotes,
    prevWasEscape.  [line] is not always the line in [lines]. *)
Record inner := Inner { in_line : list Z; in_off : nat; in_quotes : bool; in_escape : bool }.

(** [c_done] and [c_lines] are lines[:lineIndex] and lines[lineIndex:]; between
    two lines, [c_in] is [None] and c_lines is what is left. *)
Record conf := Conf {
  c_done : list (list Z); c_lines : list (list Z); c_in : option inner;
  c_last : Z;                       (** lastChar *)
  c_file : list Z; c_line : Z;      (** ppFileName, ppLineNum *)
  c_first : option (list Z);        (** firstFilename *)
  c_mark : option nat;              (** inlineCodeInjectionLineIndex *)
  c_stmts : list stmt }.            (** arguments of generateLogFunctions *)

Inductive result := Run (c : conf) | Done (c : conf) | Fail.

(** n spaces. *)
Definition spaces (n : nat) : list Z := repeat c_sp n.
(** [s.rjust(n)]. *)
Definition rjust (n : nat) (s : list Z) : list Z := spaces (n - length s) ++ s.
(** scMarker, 492. *)
Definition line_marker (n : Z) (file : list Z) : list Z := chars "# " ++ dec_str n ++ chars " " ++ qt ++ file ++ qt ++ crlf.

(** recordFnName, FunctionGenerator.py:372. *)
Definition record_fn (s : stmt) : list Z := chars "__syang0__fl" ++ log_id (st_fmt s) (st_file s) (st_line s).

(** generateLogFunctions accepts the format, FunctionGenerator.py:346-354: known
    already, or without unsupported specifiers. *)
Definition accepts (known : list stmt) (s : stmt) : bool :=
  match lookup (log_id (st_fmt s) (st_file s) (st_line s)) (process known) with
  | Some _ => true
  | None => match splitAndParse (st_fmt s) with Some _ => true | None => false end
  end.

(** 350-394: from one line to the next.  [ignored_files] is empty (87). *)
Definition next_line (c : conf) : result :=
  match c_lines c with
  | [] => Done c
  | line :: rest =>
    let n := c_line c + 1 in
    let skip file n first mark :=
      Run (Conf (c_done c ++ [line]) rest None (c_last c) file n first mark (c_stmts c)) in
    match directive line with
    | Some (k, f) => skip f (k - 1) (match c_first c with None => Some f | x => x end) (c_mark c)
    | None =>
      if occurs marker_text line then skip (c_file c) n (c_first c) (Some (length (c_done c)))
      else if negb (occurs name line) then skip (c_file c) n (c_first c) (c_mark c)
      else Run (Conf (c_done c) (line :: rest) (Some (Inner line 0 false false)) (c_last c) (c_file c) n
                  (c_first c) (c_mark c) (c_stmts c))
    end
  end.

(** 429-551: the name was found at charOffset; the inner variables are those of
    line 428. *)
Definition inject (c : conf) (i : inner) : result :=
  let off := in_off i in
  let all := concat (c_lines c) in
  if negb (starts name (skipn off (hd [] (c_lines c)))) then Fail          (* assertion, 228 *)
  else
  match parseLogStatement (skipn (off + 8) all) with
  | Some (level :: fmt :: _, after) =>
    match extractCString fmt, c_mark c with
    | Some (f0 :: f), Some (S _) =>
      let s := Stmt level (f0 :: f) (c_file c) (c_line c) in
      if negb (accepts (c_stmts c) s) then Fail
      else
      match locate (length all - length after - 1) (c_lines c) with
      | Some (before, scLine, scOffset, behind) =>
        let scHeadLine := firstn (scOffset + 1) scLine ++ crlf in
        let scMarker := line_marker (c_line c + Z.of_nat (length before)) (c_file c) in
        let scTailLine := spaces (scOffset + 1) ++ skipn (scOffset + 1) scLine in
        let line := match before with [] => scHeadLine | _ => in_line i end in
        let cur := firstn off line
                   ++ crlf ++ chars "# " ++ dec_str (c_line c) ++ chars " " ++ qt ++ chars "injectedCode.fake" ++ qt ++ crlf
                   ++ chars "{ " ++ record_fn s
                   ++ crlf ++ line_marker (c_line c) (c_file c)
                   ++ rjust (length line) (skipn (off + 8) line) in
        Run (Conf (c_done c)
               (cur :: tl (before ++ [scHeadLine]) ++ [125 :: crlf; scMarker; scTailLine] ++ behind)
               (Some (Inner line (S off) (in_quotes i) (in_escape i)))
               (hd 0 name) (c_file c) (c_line c) (c_first c) (c_mark c) (c_stmts c ++ [s]))
      | None => Fail
      end
    | _, _ => Fail                                                          (* ValueError, 438-449 *)
    end
  | _ => Fail                                                               (* ValueError *)
  end.

(** 396-553: one character. *)
Definition next_char (c : conf) (i : inner) : result :=
  match skipn (in_off i) (in_line i) with
  | [] => Run (Conf (c_done c ++ [hd [] (c_lines c)]) (tl (c_lines c)) None (c_last c) (c_file c) (c_line c)
                 (c_first c) (c_mark c) (c_stmts c))
  | ch :: r =>
    let go q e last :=
      Run (Conf (c_done c) (c_lines c) (Some (Inner (in_line i) (S (in_off i)) q e)) last (c_file c) (c_line c)
             (c_first c) (c_mark c) (c_stmts c)) in
    if (ch =? c_bsl) || in_escape i then go (in_quotes i) (negb (in_escape i)) ch
    else
      let q := if ch =? c_quote then negb (in_quotes i) else in_quotes i in
      if (ch =? hd 0 name) && negb q then
        match match_name name (ch :: r) with
        | None => Fail
        | Some false => go q false (c_last c)
        | Some true =>
          if is_alnum (c_last c) || (c_last c =? 95) then go q false (c_last c)
          else match skip_space (skipn (in_off i + 8) (hd [] (c_lines c)) ++ concat (tl (c_lines c))) with
               | [] => Fail                                                 (* TypeError, 425 *)
               | p :: _ => if p =? c_lpar then inject c (Inner (in_line i) (in_off i) q false)
                           else go q false (c_last c)
               end
        end
      else go q false ch
  end.

Definition step (c : conf) : result :=
  match c_in c with None => next_line c | Some i => next_char c i end.

Fixpoint steps (fuel : nat) (c : conf) : result :=
  match fuel with
  | O => Run c
  | S f => match step c with Run c' => steps f c' | r => r end
  end.

(** 325-345. *)
Definition start (inputFile src : list Z) : conf :=
  Conf [] (split_lines src) None 0 inputFile 0 None None [].

(** 560-575: [code] is the text of the generated functions, inserted behind the
    line with the marker; then all lines are written. *)
Definition written (code : list Z) (c : conf) : list Z :=
  match c_stmts c, c_mark c with
  | [], _ | _, None => concat (c_done c)
  | _, Some m => concat (firstn (S m) (c_done c)) ++ code ++ concat (skipn (S m) (c_done c))
  end.
