(** Model of what the decompressor's aggregation prints,
    runtime/LogDecompressor.cc:323-334 (without PREPROCESSOR_NANOLOG); its numbers
    are in Stats.v, doubles as in TimeFmt.v. *)
From Coq Require Import QArith Qabs.
From Verif Require Import Base Chars Preproc TimeFmt LogMsg Stats RcdfText.
Open Scope Z_scope.

(** printf's "%ld". *)
Definition signed_str (n : Z) : list Z := if n <? 0 then 45 :: dec_str (- n) else dec_str n.

(** (100.0*(double)count)/(double)numLogs *)
Definition percentage (count logs : Z) : Q := rnd (rnd (100 * rnd (inject_Z count)) / rnd (inject_Z logs)).
(** (1.0e9*time)/(double)count *)
Definition per_element (time : Q) (count : Z) : Q := rnd (rnd (1000000000 * time) / rnd (inject_Z count)).

(** [time]: the seconds it took. *)
Definition agg_text (r : report) (time : Q) : list Z :=
  chars "Logs Encountered: " ++ dec_str (rp_logs r) ++ [13; 10] ++
  chars "Matching Logs: " ++ signed_str (rp_count r) ++ chars " (" ++ fixedp 2 0 (percentage (rp_count r) (rp_logs r)) ++ chars "%)" ++ [13; 10] ++
  chars "Min: " ++ signed_str (rp_min r) ++ [13; 10] ++
  chars "Max: " ++ signed_str (rp_max r) ++ [13; 10] ++
  chars "Mean: " ++ signed_str (rp_mean r) ++ [13; 10] ++
  chars "Total: " ++ signed_str (rp_total r) ++ [13; 10] ++ [13; 10] ++
  chars "The aggregation took " ++ fixedp 2 0 time ++ chars " seconds over " ++ signed_str (rp_count r) ++ chars " elements (" ++
  fixedp 2 0 (per_element time (rp_count r)) ++ chars " ns avg)" ++ [13; 10].
