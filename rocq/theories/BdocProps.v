(** C57: documents in other encodings, parsed with Babel. *)
From Coq Require Import NArith.
From Verif Require Import Prelude StrModel StrSpec AttrModel TreeModel StreamModel ParseModel XmlSpec CutSpec BabelPoints BabelSpec BabelProofs BdocModel BdocSpec BdocProofs5 BdocCases.
Open Scope nat_scope.
Open Scope list_scope.

(** A document that declares one of the encodings ISO-8859-1 to -9 and -15 is read as the
    document its characters spell, and is in UTF-8 from then on, provided that the UTF-8 form
    takes no more bytes than the text has after the declaration. *)
Theorem C57_converted_partial :
  forall b decl e sa p body more us pis x,
  b = [] \/ b = bom -> decl_text decl (Some e) sa -> charset e p ->
  code_points p body = Some us -> body_text (encode_all us) pis x ->
  length (encode_all us) <= length body + length more ->
  exists d n, babel_parse (b ++ decl ++ body ++ more) = Ok (Some d) /\
    d_root d = Some n /\ shows n x /\ d_encoding d = Some (str "utf-8") /\ d_standalone d = sa /\ d_pis d = pis.
Proof. exact converted_ok. Qed.
Print Assumptions C57_converted_partial.

(** If the UTF-8 form of the root takes more bytes than the text has from the root on, the
    document is refused. *)
Theorem C57_lost :
  forall b decl e sa p front root more us vs m1 tt m2 pis x,
  b = [] \/ b = bom -> decl_text decl (Some e) sa -> charset e p ->
  code_points p front = Some us -> code_points p root = Some vs ->
  encode_all us = m1 ++ tt ++ m2 -> misc_text false m1 [] -> doctype_text tt -> misc_text true m2 pis ->
  elem_text (encode_all vs) x -> tame x ->
  length root + length more < length (encode_all vs) ->
  babel_parse (b ++ decl ++ front ++ root ++ more) = Ok None.
Proof. exact lost_ok. Qed.
Print Assumptions C57_lost.

(** So the full statement is false: of these two documents, which differ in white space
    after the root only, one is refused. *)
Theorem C57_converted_refuted :
  exists decl e sa p body us pis x,
  decl_text decl (Some e) sa /\ charset e p /\ code_points p body = Some us /\ body_text (encode_all us) pis x /\
  babel_parse (decl ++ body) = Ok None /\ exists d, babel_parse (decl ++ body ++ s2b "    ") = Ok (Some d).
Proof.
  exists latin_decl, (s2b "ISO-8859-1"), false, points_1, (latin_front ++ latin_root), (latin_us ++ latin_vs), [], latin_tree.
  split; [exact latin_decl_ok|]. split; [exact latin_charset|]. split; [exact (proj1 latin_body)|]. split; [exact (proj2 latin_body)|].
  split; [vm_compute; reflexivity|]. eexists. vm_compute. reflexivity.
Qed.
Print Assumptions C57_converted_refuted.

(** A text of ASCII alone is read as without Babel, whatever it declares. *)
Theorem C57_ascii :
  forall content, begins content -> Forall is_ascii content ->
  babel_parse content = recoded_result (str "utf-8") (doc_parse content).
Proof. exact ascii_ok. Qed.
Print Assumptions C57_ascii.

(** So is a text without declaration, whatever its bytes. *)
Theorem C57_undeclared :
  forall content, begins content -> (forall r, content <> str "<?" ++ r) ->
  babel_parse content = recoded_result (str "utf-8") (doc_parse content).
Proof. exact undeclared_ok. Qed.
Print Assumptions C57_undeclared.

(** A text that declares UTF-8 is read as without Babel if it has the pattern of UTF-8 behind
    the comments that follow the declaration, and refused otherwise. *)
Theorem C57_utf8 :
  forall b decl e sa m s,
  b = [] \/ b = bom -> decl_text decl (Some e) sa -> reads e (str "utf8") -> misc_text false m [] ->
  (exists s', s = "<"%char :: s') -> (forall r, s <> str "<!--" ++ r) ->
  (row shape s -> babel_parse (b ++ decl ++ m ++ s) = recoded_result (str "utf-8") (doc_parse (b ++ decl ++ m ++ s))) /\
  (~ row shape s -> babel_parse (b ++ decl ++ m ++ s) = Ok None).
Proof. exact utf8_ok. Qed.
Print Assumptions C57_utf8.

(** Other encodings are not refused: the text is read as it is, and said to be UTF-8. *)
Theorem C57_unknown :
  forall b decl e sa s,
  b = [] \/ b = bom -> decl_text decl (Some e) sa -> ~ reads e (str "utf8") -> (forall p, ~ charset e p) ->
  babel_parse (b ++ decl ++ s) = recoded_result (str "utf-8") (doc_parse (b ++ decl ++ s)).
Proof. exact unknown_ok. Qed.
Print Assumptions C57_unknown.

(** So a document said to be in UTF-8 may have bytes that are not: in texts without
    declaration, of unknown encodings, behind the mark of UTF-16. *)
Theorem C57_validity_refuted :
  exists c1 c2 c3,
  c1 = s2b "<a>" ++ latin_e ++ s2b "</a>" /\ c2 = koi_decl ++ c1 /\ c3 = ["255"; "254"]%char ++ c1 /\
  Forall (fun c => exists d n, babel_parse c = Ok (Some d) /\ d_encoding d = Some (str "utf-8") /\ d_root d = Some n /\
    shows n (XNode (str "a") [] [XText latin_e])) [c1; c2; c3] /\ ~ row shape latin_e.
Proof.
  eexists _, _, _. split; [reflexivity|]. split; [reflexivity|]. split; [reflexivity|]. split.
  - repeat constructor; eexists _, _; (split; [vm_compute; reflexivity|]); (split; [reflexivity|]); (split; [reflexivity|]);
      (econstructor; [reflexivity|constructor|repeat constructor]).
  - intros R. apply (check_accepts latin_e [NUL]) in R. vm_compute in R. discriminate.
Qed.
Print Assumptions C57_validity_refuted.

(** White space before the first tag, which is accepted without Babel, is refused with it. *)
Theorem C57_space_refuted :
  exists content d, doc_parse content = Ok (Some d) /\ babel_parse content = Ok None.
Proof. exists (s2b " <a/>"). eexists. split; vm_compute; reflexivity. Qed.
Print Assumptions C57_space_refuted.

(** A file in UTF-8 is refused when a character lies across the end of the first block
    that is read. *)
Theorem C57_file_refuted :
  exists content, utf8 content /\ (forall garbage, babel_parse_file garbage content = Ok None) /\
    exists d, babel_parse (utf_decl ++ s2b "<a>" ++ utf_e ++ s2b "</a>") = Ok (Some d).
Proof.
  exists straddling. split; [exact straddling_utf8|]. split; [intros garbage; vm_compute; reflexivity|]. eexists. vm_compute. reflexivity.
Qed.
Print Assumptions C57_file_refuted.

(** The hypotheses can be met *)
Example C57_case_converted :
  decl_text latin_decl (Some (s2b "ISO-8859-1")) false /\ charset (s2b "ISO-8859-1") points_1 /\
  code_points points_1 (latin_front ++ latin_root) = Some (latin_us ++ latin_vs) /\ body_text (encode_all (latin_us ++ latin_vs)) [] latin_tree /\
  length (encode_all (latin_us ++ latin_vs)) = length (latin_front ++ latin_root) + 4.
Proof. split; [exact latin_decl_ok|]. split; [exact latin_charset|]. split; [exact (proj1 latin_body)|]. split; [exact (proj2 latin_body)|reflexivity]. Qed.
Example C57_case_lost :
  encode_all latin_us = (s2b " <!-- " ++ utf_e ++ s2b " --> ") ++ [] ++ [] /\ misc_text false (s2b " <!-- " ++ utf_e ++ s2b " --> ") [] /\
  elem_text (encode_all latin_vs) latin_tree /\ tame latin_tree /\ length latin_root + 2 < length (encode_all latin_vs).
Proof.
  destruct latin_front_ok as (_ & H1 & H2). destruct latin_root_ok as (_ & H3 & H4).
  split; [exact H1|]. split; [exact H2|]. split; [exact H3|]. split; [exact H4|]. apply PeanoNat.Nat.ltb_lt. reflexivity.
Qed.
Example C57_case_begins : begins (latin_decl ++ s2b "<a/>") /\ Forall is_ascii (latin_decl ++ s2b "<a/>") /\ begins (s2b "<a>" ++ latin_e ++ s2b "</a>").
Proof.
  split; [|split; [apply ascii_list; reflexivity|]]; (split; [apply PeanoNat.Nat.leb_le; reflexivity|]); eexists _, _; (split; [reflexivity|split; discriminate]).
Qed.
Example C57_case_utf8 :
  decl_text utf_decl (Some (s2b " UTF-8 ")) false /\ reads (s2b " UTF-8 ") (s2b "utf8") /\
  row shape (s2b "<a>" ++ utf_e ++ s2b "</a>") /\ ~ row shape (s2b "<a>" ++ latin_e ++ s2b "</a>").
Proof. split; [exact utf_decl_ok|]. split; [exact utf_reads|exact utf_e_row]. Qed.
Example C57_case_unknown :
  decl_text koi_decl (Some (s2b "koi8-r")) false /\ ~ reads (s2b "koi8-r") (s2b "utf8") /\ forall p, ~ charset (s2b "koi8-r") p.
Proof. split; [exact koi_decl_ok|exact koi_unknown]. Qed.
