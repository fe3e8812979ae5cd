(** C60. *)
From Verif Require Import Prelude TreeModel XmlSpec RepModel RepSpec FrepSpec RepProofs6 FrepProofs3.
From Verif Require ParseModel.
Open Scope Z_scope.

(** The parser that keeps the account of its memory and reports errors gives the results
    of the one that does neither: in particular it touches nothing already released. *)
Theorem C60_agrees :
  forall want content o, ParseModel.doc_parse content = Ok o <-> exists m, doc_parse want content = Ok (m, o).
Proof. exact agrees. Qed.
Print Assumptions C60_agrees.

Theorem C60_agrees_file :
  forall want content o, ParseModel.doc_parse_file content = Ok o <-> exists m, doc_parse_file want (Some content) = Ok (m, o).
Proof. exact file_both. Qed.
Print Assumptions C60_agrees_file.

(** Parsing a file always comes to an end with a result, and the copies made for an error
    are of bytes inside the buffer, however the file is read.
    Missing: a quoted value of standalone= with less than two bytes (C71). *)
Theorem C60_returns_file_partial :
  forall want content,
  (forall a q v q' b, content = a ++ s2b "standalone=" ++ [q] ++ v ++ [q'] ++ b -> quote q -> quote q' -> (2 <= length v)%nat) ->
  exists m o, doc_parse_file want (Some content) = Ok (m, o).
Proof. exact file_call. Qed.
Print Assumptions C60_returns_file_partial.

(** An error is stored exactly when the parser fails and the caller asked for it: one
    error, with a negative code. *)
Theorem C60_error :
  forall want content m o, doc_parse want content = Ok (m, o) ->
  reports m = [] /\ (o <> None \/ want = false) \/ exists r, reports m = [r] /\ o = None /\ want = true /\ r_code r < 0.
Proof. intros want content m o H. exact (returned_error _ _ _ _ _ (mem_returned _ _ _ _ H)). Qed.
Print Assumptions C60_error.

Theorem C60_error_file :
  forall want file m o, doc_parse_file want file = Ok (m, o) ->
  reports m = [] /\ (o <> None \/ want = false) \/ exists r, reports m = [r] /\ o = None /\ want = true /\ r_code r < 0.
Proof. intros want file m o H. exact (returned_error _ _ _ _ _ (file_returned _ _ _ _ H)). Qed.
Print Assumptions C60_error_file.

(** The error names a place of the text, and quotes it. *)
Theorem C60_place :
  forall content m, doc_parse true content = Ok (m, None) -> exists r, reports m = [r] /\ place_in content r.
Proof. exact place. Qed.
Print Assumptions C60_place.

(** Of a file, the size and the byte that are told are those of the part which happens to be
    in the buffer. *)
Theorem C60_place_file_refuted :
  exists content m r, doc_parse_file true (Some content) = Ok (m, None) /\ reports m = [r] /\ ~ place_in content r.
Proof. exact place_file. Qed.
Print Assumptions C60_place_file_refuted.

(** But they are those of a part of the file, and what the error quotes is what the file has
    there: around the byte, and behind it. *)
Theorem C60_place_file :
  forall want content m r, doc_parse_file want (Some content) = Ok (m, None) -> In r (reports m) -> place_within content r.
Proof. exact file_place. Qed.
Print Assumptions C60_place_file.

(** When the caller has released the document or the error, nothing is left of what the
    call allocated; except that one block may be left when an element has no name.
    Missing: that case, see below. *)
Theorem C60_released_partial :
  forall want content m o, doc_parse want content = Ok (m, o) ->
  exists m', settle m o = Ok m' /\ (length (live m') <= 1)%nat /\ (o <> None -> live m' = []) /\
    (live m' <> [] -> want = true -> exists r, reports m = [r] /\ r_code r = -2 /\ r_text r = no_name).
Proof. intros want content m o H. exact (returned_settle _ _ _ _ _ (mem_returned _ _ _ _ H)). Qed.
Print Assumptions C60_released_partial.

Theorem C60_released_file_partial :
  forall want file m o, doc_parse_file want file = Ok (m, o) ->
  exists m', settle m o = Ok m' /\ (length (live m') <= 1)%nat /\ (o <> None -> live m' = []) /\
    (live m' <> [] -> want = true -> exists r, reports m = [r] /\ r_code r = -2 /\ r_text r = no_name).
Proof. intros want file m o H. exact (returned_settle _ _ _ _ _ (file_returned _ _ _ _ H)). Qed.
Print Assumptions C60_released_file_partial.

(** [<?a b?><c] after the header: the content of the instruction is never released. *)
Theorem C60_lost_refuted :
  exists content m m', doc_parse true content = Ok (m, None) /\ settle m None = Ok m' /\ live m' <> [].
Proof.
  exists (s2b "<?xml version='1.0' ?><?a b?><c"). eexists _, _. split; [vm_compute; reflexivity|]. split; [vm_compute; reflexivity|]. discriminate.
Qed.
Print Assumptions C60_lost_refuted.
