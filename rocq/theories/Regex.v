(** A small backtracking regular expression matcher with ECMAScript priorities,
    enough for the expression in runtime/Log.cc:847-853.  [rx r s] lists all
    ways [r] can match a prefix of [s], in the order a backtracking matcher
    (std::regex, ECMAScript grammar) tries them: the captures, the text matched
    and what is left. *)
From Verif Require Import Base Chars.

Inductive re :=
| RChr (f : Z -> bool)          (* one character of a class *)
| RSeq (a b : re)
| RAlt (a b : re)               (* a|b, left alternative first *)
| ROpt (a : re)                 (* a?, greedy *)
| RPlus (f : Z -> bool)         (* [class]+, greedy *)
| RGrp (k : Z) (a : re).        (* capture group *)

Definition caps := list (Z * list Z).
Record rmatch := RM { rm_caps : caps; rm_text : list Z; rm_rest : list Z }.

(** One or more characters of a class, longest match first. *)
Fixpoint plus_all (f : Z -> bool) (s : list Z) : list rmatch :=
  match s with
  | c :: t => if f c
              then map (fun x => RM [] (c :: rm_text x) (rm_rest x)) (plus_all f t) ++ [RM [] [c] t]
              else []
  | [] => []
  end.

Fixpoint rx (r : re) (s : list Z) : list rmatch :=
  match r with
  | RChr f => match s with c :: t => if f c then [RM [] [c] t] else [] | [] => [] end
  | RSeq a b =>
      flat_map (fun x => map (fun y => RM (rm_caps x ++ rm_caps y) (rm_text x ++ rm_text y) (rm_rest y))
                             (rx b (rm_rest x))) (rx a s)
  | RAlt a b => rx a s ++ rx b s
  | ROpt a => rx a s ++ [RM [] [] s]
  | RPlus f => plus_all f s
  | RGrp k a => map (fun x => RM ((k, rm_text x) :: rm_caps x) (rm_text x) (rm_rest x)) (rx a s)
  end.

(** The match an anchored search reports. *)
Definition rx_first (r : re) (s : list Z) : option rmatch := hd_error (rx r s).

(** [match[k].str()]: empty if the group did not take part. *)
Fixpoint group (k : Z) (g : caps) : list Z :=
  match g with
  | [] => []
  | (j, t) :: g' => if j =? k then t else group k g'
  end.

Definition rlit (c : Z) : re := RChr (Z.eqb c).
Fixpoint rstr (l : list Z) : re :=
  match l with
  | [] => RChr (fun _ => false)
  | [c] => rlit c
  | c :: l' => RSeq (rlit c) (rstr l')
  end.
Fixpoint ralts (l : list (list Z)) : re :=
  match l with
  | [] => RChr (fun _ => false)
  | [x] => rstr x
  | x :: l' => RAlt (rstr x) (ralts l')
  end.
Definition rset (l : list Z) : Z -> bool := fun c => mem_char c l.
