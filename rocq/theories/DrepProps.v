(** C61. *)
From Verif Require Import Prelude DtdModel DtdDocModel RepModel RepSpec FrepSpec DrepModel DrepSpec DrepProofs5.
From Verif Require LoadModel.
Open Scope Z_scope.

(** The loader that keeps the account of its memory and reports errors gives the results
    of the one that does neither: in particular it touches nothing already released. *)
Theorem C61_agrees :
  forall want fuel content o, LoadModel.dtd_parse fuel content = Ok o <-> exists m x, dtd_parse want fuel content = Ok (m, x) /\ o = option_map snd x.
Proof. exact agrees. Qed.
Print Assumptions C61_agrees.

Theorem C61_agrees_file :
  forall want fuel content o, LoadModel.dtd_parse_file fuel content = Ok o <->
  exists m x, dtd_parse_file want fuel (Some content) = Ok (m, x) /\ o = option_map snd x.
Proof. exact file_agrees. Qed.
Print Assumptions C61_agrees_file.

(** Whatever a file holds, loading it, and telling the error if there is one, is free of
    undefined behaviour: also the text around the place of the error is inside the buffer,
    wherever references to parameter entities have moved that place. *)
Theorem C61_file_no_fault :
  forall want fuel file, dtd_parse_file want fuel file <> UB.
Proof. exact file_no_fault. Qed.
Print Assumptions C61_file_no_fault.

(** An error is stored exactly when the loader fails and the caller asked for it: one
    error, with a negative code. *)
Theorem C61_error :
  forall want fuel content m o, dtd_parse want fuel content = Ok (m, o) ->
  reports m = [] /\ (o <> None \/ want = false) \/ exists r, reports m = [r] /\ o = None /\ want = true /\ r_code r < 0.
Proof. intros want fuel content m o H. exact (returned_error _ _ _ _ (mem_returned _ _ _ _ _ H)). Qed.
Print Assumptions C61_error.

Theorem C61_error_file :
  forall want fuel file m o, dtd_parse_file want fuel file = Ok (m, o) ->
  reports m = [] /\ (o <> None \/ want = false) \/ exists r, reports m = [r] /\ o = None /\ want = true /\ r_code r < 0.
Proof. intros want fuel file m o H. exact (returned_error _ _ _ _ (file_returned _ _ _ _ _ H)). Qed.
Print Assumptions C61_error_file.

(** The error names a place of the text and quotes it; of the text with the values of
    parameter entities put in, if it has references to them. *)
Theorem C61_place :
  forall fuel content m o, dtd_parse true fuel content = Ok (m, o) -> o = None ->
  exists r text, reports m = [r] /\ place_in text r /\ (~ In "%"%char content -> text = content).
Proof. exact place. Qed.
Print Assumptions C61_place.

(** Of a file the error names a place of a part of it, and quotes what the file has there. *)
Theorem C61_place_file :
  forall fuel content m o, dtd_parse_file true fuel (Some content) = Ok (m, o) -> o = None ->
  exists r text, reports m = [r] /\ place_within text r /\ (~ In "%"%char content -> text = content).
Proof. exact place_file. Qed.
Print Assumptions C61_place_file.

(** The size and the byte it names are not those of the file. *)
Theorem C61_place_file_refuted :
  exists content m r, ~ In "%"%char content /\ dtd_parse_file true 100 (Some content) = Ok (m, None) /\ reports m = [r] /\ ~ place_in content r.
Proof. exact place_file_lost. Qed.
Print Assumptions C61_place_file_refuted.

(** When the caller has released the DTD, nothing is left of what the call allocated; when
    it has released the error, something is left exactly when the error is one about the
    content of an element, or an element declared twice.
    Missing: those cases, see below. *)
Theorem C61_released_partial :
  forall want fuel content m o, dtd_parse want fuel content = Ok (m, o) ->
  exists m', settle_dtd m o = Ok m' /\ (o <> None -> live m' = []) /\
    (want = true -> live m' <> [] <-> exists r, reports m = [r] /\ In (r_text r) element_errors).
Proof. intros want fuel content m o H. exact (returned_settle _ _ _ _ (mem_returned _ _ _ _ _ H)). Qed.
Print Assumptions C61_released_partial.

Theorem C61_released_file_partial :
  forall want fuel file m o, dtd_parse_file want fuel file = Ok (m, o) ->
  exists m', settle_dtd m o = Ok m' /\ (o <> None -> live m' = []) /\
    (want = true -> live m' <> [] <-> exists r, reports m = [r] /\ In (r_text r) element_errors).
Proof. intros want fuel file m o H. exact (returned_settle _ _ _ _ (file_returned _ _ _ _ _ H)). Qed.
Print Assumptions C61_released_file_partial.

(** [<!ELEMENT a (b]: the element, its name, its list of contents are never released. *)
Theorem C61_lost_refuted :
  exists content m m', dtd_parse true 100 content = Ok (m, None) /\ settle_dtd m (@None (mdtd * (dtd * list entity))) = Ok m' /\ live m' <> [].
Proof.
  exists (s2b "<!ELEMENT a (b"). eexists _, _. split; [vm_compute; reflexivity|]. split; [vm_compute; reflexivity|]. discriminate.
Qed.
Print Assumptions C61_lost_refuted.

(** The same happens to the second declaration of an element. *)
Theorem C61_twice_refuted :
  exists content m m', dtd_parse true 100 content = Ok (m, None) /\ settle_dtd m (@None (mdtd * (dtd * list entity))) = Ok m' /\ live m' <> [].
Proof.
  exists (s2b "<!ELEMENT a EMPTY><!ELEMENT a (b, c)>"). eexists _, _. split; [vm_compute; reflexivity|]. split; [vm_compute; reflexivity|]. discriminate.
Qed.
Print Assumptions C61_twice_refuted.
