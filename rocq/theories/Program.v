(** Model of the decompressor program, runtime/LogDecompressor.cc:121-149 and
    151-290, as built for logs of the C++17 version (without
    PREPROCESSOR_NANOLOG). *)
From Verif Require Import Base Chars Preproc Printf Decode Decoder Ordered FileSpec LineFmt.

Definition crlf : list Z := [13; 10].

(** printHelp, LogDecompressor.cc:121-133. *)
Definition help_text (exe : list Z) : list Z :=
  chars "Decompress/Aggregate log files produced by the NanoLog System" ++ crlf ++ crlf ++
  chars "Decompress the log file into a human-readable format:" ++ crlf ++
  [9] ++ exe ++ chars " decompress <logFile>" ++ crlf ++ crlf ++
  chars "Decompress the log file into a sorted human-readable format " ++ crlf ++
  chars "without sorting the messages by time:" ++ crlf ++
  [9] ++ exe ++ chars " decompressUnordered <logFile>" ++ crlf ++ crlf ++
  chars "Create an RCDF of the inter-log invocation times. Only works" ++ crlf ++
  chars "when there is one runtime logging thread:" ++ crlf ++
  [9] ++ exe ++ chars " rcdfTime <logFile>" ++ crlf ++ crlf.

(** LogDecompressor.cc:279-280 and 289-290. *)
Definition complete_text (n : Z) : list Z :=
  crlf ++ crlf ++ chars "# Decompression Complete after printing " ++ dec_str n ++ chars " log messages" ++ crlf.

(** while (decoder.getNextLogStatement(args, outputFd)) ++numLogMsgs,
    LogDecompressor.cc:286-287: what is written, numLogMsgs.  A call that returns
    true has advanced in the file or in the extent that was read from it. *)
Fixpoint print_all (conv : rconv -> list Z) (calls : nat) (d : decoder) : option (list event * Z) :=
  match calls with
  | O => None
  | S n =>
    match getNextLogStatement conv d with
    | None => None
    | Some (_, evs, false) => Some (evs, 0)
    | Some (d', evs, true) =>
      match print_all conv n d' with
      | None => None
      | Some (evs', k) => Some (evs ++ evs', k + 1)
      end
    end
  end.

Fixpoint texts (zone : Z -> Z) (ls : list oline) : option (list Z) :=
  match ls with
  | [] => Some []
  | l :: r =>
    match line_text zone l, texts zone r with
    | Some t, Some t' => Some (t ++ t')
    | _, _ => None
    end
  end.

Definition list_eqb (a b : list Z) : bool := if list_eq_dec Z.eq_dec a b then true else false.

Inductive command := CDecompress | CUnordered | CRcdf.

(** LogDecompressor.cc:165-210. *)
Definition command_of (s : list Z) : option command :=
  if list_eqb s (chars "decompress") then Some CDecompress
  else if list_eqb s (chars "decompressUnordered") then Some CUnordered
  else if list_eqb s (chars "rcdfTime") then Some CRcdf
  else None.

(** main: the exit status and what is written to stdout.  [fs] are the files that
    can be opened.  [None]: the file makes the decoder fail (an assertion, an
    exception, an access out of bounds), or the command is rcdfTime, whose output
    has measured times (its numbers are in Stats). *)
Definition program (conv : rconv -> list Z) (pick : chooser) (zone : Z -> Z) (fs : list Z -> option (list Z)) (argv : list (list Z))
    : option (Z * list Z) :=
  match argv with
  | exe :: cmd :: name :: _ =>
    match command_of cmd with
    | None => Some (1, help_text exe)
    | Some c =>
      let unable := Some (1, chars "Unable to open file " ++ name ++ crlf) in
      match fs name with
      | None => unable
      | Some content =>
        match d_open_file new_decoder content with
        | None => None
        | Some (_, false) => unable
        | Some (d, true) =>
          let finish (r : option (list event * Z)) :=
            match r with
            | None => None
            | Some (evs, n) =>
              match texts zone (map line_of evs) with
              | None => None
              | Some t => Some (0, t ++ complete_text n)
              end
            end in
          match c with
          | CDecompress => finish (option_map (fun r => (snd (fst r), snd r)) (decompressTo conv pick d))
          | CUnordered => finish (print_all conv (S (S (length content))) d)
          | CRcdf => None
          end
        end
      end
    end
  | exe :: _ => Some (1, help_text exe)
  | [] => None
  end.
