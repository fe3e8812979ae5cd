(** C40, C41: the UTF-8 check and the single byte encodings. *)
From Coq Require Import NArith.
From Verif Require Import Prelude BabelModel BabelTables BabelPoints BabelSpec BabelExec BabelProofs BabelProofs2 BabelProofs3 BabelCases.
Open Scope nat_scope.
Open Scope list_scope.

(** C40: the check never reads outside the content, whatever follows it in memory, and accepts
    every well-formed UTF-8 text.  What is missing: it accepts more, see C40_refuted. *)
Theorem C40_accepts_partial (content junk : bytes) : utf8 content -> check_utf8 (content ++ junk) (Z.of_nat (length content)) = Ok (true, 0).
Proof. exact (check_utf8_accepts content junk). Qed.
Print Assumptions C40_accepts_partial.
Example C40_accepts_case : utf8 sample.
Proof. exact sample_utf8. Qed.

(** C40: exactly the texts made of the byte patterns of UTF-8 are accepted. *)
Theorem C40_patterns_partial (content junk : bytes) : check_utf8 (content ++ junk) (Z.of_nat (length content)) = Ok (true, 0) <-> row shape content.
Proof. exact (iff_sym (check_accepts content junk)). Qed.
Print Assumptions C40_patterns_partial.

(** C40: otherwise it is rejected, and the index reported is that of the first place where
    no pattern begins. *)
Theorem C40_index_partial (content junk : bytes) (k : nat) : check_utf8 (content ++ junk) (Z.of_nat (length content)) = Ok (false, k) <->
  exists good rest, content = good ++ rest /\ row shape good /\ stuck rest /\ k = length good.
Proof. exact (check_rejects content junk k). Qed.
Print Assumptions C40_index_partial.
Example C40_index_case : check_utf8 (bs [97; 226; 130; 97]%N) 4 = Ok (false, 1).
Proof. exact truncated. Qed.

(** C40: one of the two always happens. *)
Theorem C40_total (content junk : bytes) : check_utf8 (content ++ junk) (Z.of_nat (length content)) = Ok (true, 0) \/
  exists k, check_utf8 (content ++ junk) (Z.of_nat (length content)) = Ok (false, k).
Proof. exact (check_total content junk). Qed.
Print Assumptions C40_total.

(** C40: with length -1 the content is the string up to its end. *)
Theorem C40_string (s junk : bytes) : nul_free s -> check_utf8 (s ++ NUL :: junk) (-1) = check_utf8 (s ++ NUL :: junk) (Z.of_nat (length s)).
Proof. exact (check_string s junk). Qed.
Print Assumptions C40_string.

(** C40 is false as stated: overlong forms, surrogates and numbers beyond U+10FFFF pass. *)
Theorem C40_refuted : exists content, check_utf8 content (Z.of_nat (length content)) = Ok (true, 0) /\ ~ utf8 content.
Proof. exact (ex_intro _ (bs [192; 128]%N) overlong). Qed.
Print Assumptions C40_refuted.
Theorem C40_surrogate_refuted : exists content, length content = 3 /\ check_utf8 content (Z.of_nat (length content)) = Ok (true, 0) /\ ~ utf8 content.
Proof. exact (ex_intro _ (bs [237; 160; 128]%N) (conj eq_refl surrogate)). Qed.
Print Assumptions C40_surrogate_refuted.
Theorem C40_beyond_refuted : exists content, length content = 4 /\ check_utf8 content (Z.of_nat (length content)) = Ok (true, 0) /\ ~ utf8 content.
Proof. exact (ex_intro _ (bs [245; 128; 128; 128]%N) (conj eq_refl beyond)). Qed.
Print Assumptions C40_beyond_refuted.

(** C41: one call converts as many bytes as fit: it writes their entries at the start of the
    output and leaves the rest of the output alone. *)
Theorem C41_call t src junk out size remain : full t -> size <= length out ->
  exists k, k <= length src /\
    single_to_utf8 t (src ++ junk) (length src) out size remain =
      Ok (transcode t (firstn k src) ++ skipn (length (transcode t (firstn k src))) out, length (transcode t (firstn k src)),
          if Nat.eqb k (length src) then 1 else 2, if Nat.eqb k (length src) then remain else k) /\
    length (transcode t (firstn k src)) <= size /\
    (k < length src -> size < length (transcode t (firstn (S k) src))).
Proof. exact (single_ok t src junk out size remain). Qed.
Print Assumptions C41_call.

(** C41: in any number of steps with any output buffers, what comes out followed by the
    conversion of what is left is the conversion of the text; no output is overrun; and
    when the buffers hold at least six bytes and there is one for each byte of the text,
    nothing is left. *)
Theorem C41_steps t outs k : full t -> k_last k <= length (k_temp k) ->
  exists k' l, decode_all t k outs = Ok (k', l) /\
    concat l ++ transcode t (pending k') = transcode t (pending k) /\
    Forall2 (fun o out => length o <= length out) l outs /\
    ((forall out, In out outs -> 6 <= length out) -> k_last k <= length outs -> pending k' = []).
Proof. exact (steps_ok t outs k). Qed.
Print Assumptions C41_steps.
Example C41_steps_case : k_last euro <= length (k_temp euro) /\ full table_15 /\
  option_map (fun r => (pending (fst r), snd r)) (match decode_all table_15 euro [bs [0; 0]%N; bs [0; 0; 0]%N; bs [0; 0; 0]%N] with Ok r => Some r | _ => None end) =
  Some ([], [bs [97]%N; bs [226; 130; 172]%N; bs [98]%N]).
Proof. exact (conj euro_le (conj full_15 euro_run)). Qed.

(** C41: the tables of the library have an entry of one to six bytes for each byte, and for
    a text of the encoding the conversion is the UTF-8 form of its code points, is
    well-formed, and identifies the text. *)
Theorem C41_tables_partial t p : In (t, p) shipped ->
  full t /\
  (forall src us, code_points p src = Some us -> transcode t src = encode_all us /\ utf8 (transcode t src)) /\
  (forall src1 src2 us1 us2, code_points p src1 = Some us1 -> code_points p src2 = Some us2 -> transcode t src1 = transcode t src2 -> src1 = src2).
Proof. exact (tables_ok t p). Qed.
Print Assumptions C41_tables_partial.
Example C41_tables_case : In (table_15, points_15) shipped /\ code_points points_15 (pending euro) = Some [97; 8364; 98]%N.
Proof. exact (conj in_15 euro_points). Qed.

(** C41 is false for bytes that are not part of the encoding: they become NUL. *)
Theorem C41_refuted : exists t p src1 src2, In (t, p) shipped /\ src1 <> src2 /\ transcode t src1 = transcode t src2.
Proof. exact undefined_lost. Qed.
Print Assumptions C41_refuted.
