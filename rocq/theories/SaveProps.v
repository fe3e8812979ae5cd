(** C63: what is saved to a file and what is loaded from it. *)
From Verif Require Import Prelude StrSpec StrProofs AttrModel TreeModel StreamModel ParseModel ParseProofs DumpModel XmlSpec FileCases
  SaveModel SaveSpec SaveProofs SaveProofs2 SaveCases.
Open Scope Z_scope.

(** The full claim would be: when axl_doc_dump_to_file, axl_doc_dump_pretty_to_file,
    axl_node_dump_to_file or axl_node_dump_pretty_to_file answers true, the file holds exactly
    what the function without [_to_file] gives, and loading the file gives the same tree.
    Missing are the cases that the refuted statements below show. *)

(** When nothing that fwrite accepted is lost by fclose ([keeps]): true is answered only if the
    file holds the text of the dump; otherwise the file is as before or incomplete. This for
    every document or node that can be dumped (C22), every width and every room on the disk.
    axl_node_dump_to_file writes the pretty layout of width 0. *)
Theorem C63_saved_partial : forall k file n x encoding standalone pis,
  shows n x -> measurable x -> (forall v, encoding = Some v -> nul_free v) -> keeps k ->
  let d := Doc (Some n) encoding standalone pis in
  saved k file (doc_dump d) (doc_dump_to_file k file d) /\
  (forall t, saved k file (doc_dump_pretty d (Z.of_nat t)) (doc_dump_pretty_to_file k file d (Z.of_nat t))) /\
  (forall t, saved k file (node_dump_pretty n (Z.of_nat t)) (node_dump_pretty_to_file k file n (Z.of_nat t))) /\
  saved k file (node_dump_pretty n 0) (node_dump_to_file k file n).
Proof. exact saves. Qed.
Print Assumptions C63_saved_partial.
Example C63_saved_case : shows n_back x_back /\ measurable x_back /\ keeps good_disk /\ keeps (Disk true 10 20) /\
  doc_dump_pretty_to_file good_disk None (Doc (Some n_back) (Some (s2b "utf-8")) false []) 2 = Ok (true, Some f_back) /\
  doc_dump_pretty_to_file (Disk true 10 20) None (Doc (Some n_back) (Some (s2b "utf-8")) false []) 2 = Ok (false, Some (s2b "<?xml vers")).
Proof.
  split; [exact shows_back|]. split; [apply (proj1 GramProofs4.proper_measurable), proper_back|]. split; [apply le_n|]. split; [unfold keeps; cbn; lia|].
  split; [exact save_back|vm_compute; reflexivity].
Qed.

(** A plain dump that was saved comes back when the text has at most 8192 bytes: for trees that
    come back from memory (C23) in which no value or text holds [>] and no text begins with
    white space. *)
Theorem C63_plain_partial : forall k file file' n x encoding standalone pis,
  shows n x -> proper x -> sober x -> plain_encoding encoding -> keeps k ->
  doc_dump_to_file k file (Doc (Some n) encoding standalone pis) = Ok (true, file') ->
  exists text, file' = Some text /\ (short text -> loaded text x encoding standalone).
Proof.
  intros k file file' n x e sa pis S P So E K R. destruct (back None k file file' n x e sa pis S P So (or_introl eq_refl) E K R) as (text & F & L).
  exists text. split; [exact F|]. intros Sh. apply L. left. exact Sh.
Qed.
Print Assumptions C63_plain_partial.
Example C63_plain_case : exists text, shows n_back x_back /\ proper x_back /\ sober x_back /\ keeps good_disk /\
  doc_dump_to_file good_disk None (Doc (Some n_back) None true []) = Ok (true, Some text) /\ short text /\
  kids_of (doc_parse_file text) = Some 3%nat.
Proof.
  eexists. split; [exact shows_back|]. split; [exact proper_back|]. split; [exact sober_back|]. split; [apply le_n|].
  split; [vm_compute; reflexivity|]. split; [vm_compute; discriminate|vm_compute; reflexivity].
Qed.

(** A pretty dump that was saved comes back when moreover no element mixes text with elements:
    if the text has at most 8192 bytes, or, whatever its size, if the tree holds only elements
    and texts and no value holds [<]. The same for a node saved alone. *)
Theorem C63_pretty_partial : forall k file file' n x encoding standalone pis t,
  shows n x -> proper x -> sober x -> unmixed x -> plain_encoding encoding -> keeps k ->
  doc_dump_pretty_to_file k file (Doc (Some n) encoding standalone pis) (Z.of_nat t) = Ok (true, file') ->
  exists text, file' = Some text /\ (short text \/ basic x -> loaded text x encoding standalone).
Proof.
  intros k file file' n x e sa pis t S P So U E K R. destruct (back (Some t) k file file' n x e sa pis S P So (or_intror U) E K R) as (text & F & L).
  exists text. split; [exact F|]. intros [Sh|B]; apply L; [left; exact Sh|right; split; [discriminate|exact B]].
Qed.
Print Assumptions C63_pretty_partial.
Theorem C63_node_partial : forall k file file' n x t,
  shows n x -> proper x -> sober x -> unmixed x -> keeps k ->
  node_dump_pretty_to_file k file n (Z.of_nat t) = Ok (true, file') \/ (t = 0%nat /\ node_dump_to_file k file n = Ok (true, file')) ->
  exists text, file' = Some text /\ (short text \/ basic x -> loaded text x None false).
Proof.
  intros k file file' n x t S P So U K [R|[-> R]].
  - exact (back_node t k file file' n x S P So U K R).
  - exact (back_node 0 k file file' n x S P So U K R).
Qed.
Print Assumptions C63_node_partial.
Example C63_pretty_case : exists text, shows n_large x_large /\ proper x_large /\ sober x_large /\ unmixed x_large /\ basic x_large /\ keeps good_disk /\
  doc_dump_pretty_to_file good_disk None d_large 2 = Ok (true, Some text) /\ ~ short text /\ kids_of (doc_parse_file text) = Some 1%nat.
Proof.
  exists (s2b "<?xml version='1.0' ?>" ++ lf ++ s2b "<aaa>" ++ t_large ++ s2b "</aaa>" ++ lf).
  split; [exact shows_large|]. split; [exact proper_large|]. split; [exact sober_large|].
  split; [constructor; [right; reflexivity|]; apply unmixed_other; [discriminate|constructor]|]. split; [exact basic_large|]. split; [apply le_n|].
  split; [vm_cast_no_check (eq_refl (Ok (true, Some (s2b "<?xml version='1.0' ?>" ++ lf ++ s2b "<aaa>" ++ t_large ++ s2b "</aaa>" ++ lf))))|].
  split; [|vm_cast_no_check (eq_refl (Some 1%nat))]. unfold short.
  assert (E : N.of_nat (length (s2b "<?xml version='1.0' ?>" ++ lf ++ s2b "<aaa>" ++ t_large ++ s2b "</aaa>" ++ lf)) = 8196%N) by vm_cast_no_check (eq_refl 8196%N).
  rewrite E. intros H. apply H. reflexivity.
Qed.

(** A plain dump larger than the buffer may be saved, and be rejected when it is loaded, although
    it is accepted from memory. *)
Theorem C63_large_refuted : exists k n x file, shows n x /\ proper x /\ sober x /\ basic x /\ keeps k /\
  doc_dump_to_file k None (Doc (Some n) None false []) = Ok (true, Some file) /\
  accepted (doc_parse file) = true /\ rejected (doc_parse_file file) = true.
Proof.
  exists good_disk, n_large, x_large, f_large. split; [exact shows_large|]. split; [exact proper_large|]. split; [exact sober_large|].
  split; [exact basic_large|]. split; [apply le_n|]. split; [exact save_large|]. split; [exact parse_large|exact load_large].
Qed.
Print Assumptions C63_large_refuted.

(** A text loses the blank it begins with. *)
Theorem C63_blank_refuted : exists k d file, keeps k /\ doc_dump_to_file k None d = Ok (true, Some file) /\
  root_kids (Ok (Some d)) = Some [IContent (s2b " xy")] /\ root_kids (doc_parse_file file) = Some [IContent (s2b "xy")].
Proof. exists good_disk, d_blank, f_blank. split; [apply le_n|]. split; [exact save_blank|]. split; [reflexivity|exact load_blank]. Qed.
Print Assumptions C63_blank_refuted.

(** axl_node_dump_to_file does not write what axl_node_dump gives; with mixed content the tree
    that comes back is another one. *)
Theorem C63_node_refuted : exists k n text file,
  node_dump n = Ok (Some (text ++ [NUL], Z.of_nat (length text))) /\ node_dump_to_file k None n = Ok (true, Some file) /\ file <> text /\
  root_kids (doc_parse text) <> root_kids (doc_parse_file file).
Proof.
  exists good_disk, n_two, (s2b "<a>t<b /></a>"), (s2b "<a>" ++ lf ++ s2b "t<b />" ++ lf ++ s2b "</a>" ++ lf).
  split; [vm_compute; reflexivity|]. split; [vm_compute; reflexivity|]. split; [discriminate|]. vm_compute. discriminate.
Qed.
Print Assumptions C63_node_refuted.

(** true is answered although the file is empty: the result of fclose is not looked at. *)
Theorem C63_close_refuted : exists k d, doc_dump_to_file k None d = Ok (true, Some []).
Proof. exists late_disk, d_blank. vm_compute. reflexivity. Qed.
Print Assumptions C63_close_refuted.
