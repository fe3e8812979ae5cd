(** C64: files in other encodings, converted while they are read. *)
From Coq Require Import NArith ZArith.
From Verif Require Import Prelude StrModel StrSpec AttrModel TreeModel StreamModel ParseModel XmlSpec CutSpec BabelModel BabelTables BabelPoints BabelSpec BdocModel BdocSpec BdocCases FileCases
  BfileSpec BfileProofs2 BfileProofs3 BfileCases.
Open Scope nat_scope.
Open Scope list_scope.

(** What a reader has taken from the stream, with what it can look at, is the conversion of
    the file up to some place, and of all of it once the file has been closed: no byte is
    lost, none comes twice, the order is kept.  This is so as long as the reader does not
    ask for more with an empty window while the stream wants to grow its buffer, and the
    uninitialised variable does not happen to be 2. *)
Theorem C64_delivered_partial :
  forall t garbage content n st acts,
  full t -> garbage <> 2%Z -> converting t garbage content n st -> always careful acts st ->
  exists out st' read rest, run acts st = Ok (out, st') /\ skipn n content = read ++ rest /\ out ++ window st' = transcode t read /\
    (closed st' -> rest = []).
Proof. exact delivered. Qed.
Print Assumptions C64_delivered_partial.

(** A reader that always leaves one byte in the window is such a reader. *)
Theorem C64_keeping_partial :
  forall t garbage content n st acts,
  full t -> garbage <> 2%Z -> converting t garbage content n st -> always keeping acts st ->
  exists out st' read rest, run acts st = Ok (out, st') /\ skipn n content = read ++ rest /\ out ++ window st' = transcode t read /\
    (closed st' -> rest = []).
Proof. exact kept_back. Qed.
Print Assumptions C64_keeping_partial.

(** So is every reader, if the bytes of the file are converted to one byte each. *)
Theorem C64_single_partial :
  forall t garbage content n st acts,
  full t -> garbage <> 2%Z -> converting t garbage content n st ->
  (forall c, In c (skipn n content) -> length (written t c) = 1) -> always inside acts st ->
  exists out st' read rest, run acts st = Ok (out, st') /\ skipn n content = read ++ rest /\ out ++ window st' = transcode t read /\
    (closed st' -> rest = []).
Proof. exact single_bytes. Qed.
Print Assumptions C64_single_partial.

(** A reader of such a file that takes all there is, again and again, gets the whole
    conversion. *)
Theorem C64_drained_partial :
  forall t garbage content n st m,
  full t -> garbage <> 2%Z -> converting t garbage content n st ->
  (forall c, In c (skipn n content) -> length (written t c) = 1) -> length content < m ->
  exists st', drain m st = Ok (transcode t (skipn n content), st').
Proof. exact drained. Qed.
Print Assumptions C64_drained_partial.

(** Asking for more with an empty window brings something, unless all has been taken. *)
Theorem C64_progress_partial :
  forall t garbage content n st acts out st' st2 more,
  full t -> garbage <> 2%Z -> converting t garbage content n st -> always careful acts st ->
  run acts st = Ok (out, st') -> window st' = [] -> ~ flagged st' -> prebuffer st' = Ok (st2, more) ->
  window st2 <> [] \/ out = transcode t (skipn n content).
Proof. exact progress. Qed.
Print Assumptions C64_progress_partial.

(** If the uninitialised variable is 2, and the bytes of the first block are converted to one
    byte each, the rest of the file never comes, its end is never seen, and a search for a
    byte that is not in the first block does not end. *)
Theorem C64_stopped :
  forall t content n st,
  full t -> converting t 2 content n st -> content <> [] ->
  (forall c, In c (skipn n (firstn (Z.to_nat buffer_size) content)) -> length (written t c) = 1) ->
  let first := transcode t (skipn n (firstn (Z.to_nat buffer_size) content)) in
  window st = first /\ (forall m, exists st', run (repeat More m) st = Ok ([], st') /\ window st' = first) /\
  (forall c accept, c <> " "%char -> ~ In c first ->
   forall fuel, until_loop fuel st [[c]] accept false 0 (s_size st - s_idx st) false = NoFuel).
Proof. exact stopped. Qed.
Print Assumptions C64_stopped.

(** So whether a broken document is refused depends on a value that nobody has set: with 0 this
    happens, with 2 the parser does not end; nor does it, with 2, for this complete document. *)
Theorem C64_garbage_refuted :
  exists broken,
  babel_parse_file 0 broken = Ok None /\ babel_parse_file 2 broken = NoFuel /\
  exists decl e sa p body us x,
  decl_text decl (Some e) sa /\ charset e p /\ code_points p body = Some us /\ body_text (encode_all us) [] x /\
  babel_parse_file 2 (decl ++ body) = NoFuel.
Proof.
  exists early. split; [exact early_0|]. split; [exact early_2|].
  exists latin_decl, (s2b "ISO-8859-1"), false, points_1, long_body, long_us, (XNode (s2b "a") [] [XText (txt 8200)]).
  split; [exact latin_decl_ok|]. split; [exact latin_charset|]. split; [exact long_points|]. split; [exact long_body_ok|exact long_2].
Qed.
Print Assumptions C64_garbage_refuted.

(** A document in ISO-8859-1 whose content is read twice, whatever the variable is: the root
    has five items instead of three. *)
Theorem C64_twice_refuted :
  exists decl e sa p body us text name end_text,
  decl_text decl (Some e) sa /\ charset e p /\ code_points p body = Some us /\
  body_text (encode_all us) [] (XNode (s2b "a") [] [XText text; XElem (XNode name [] []); XText end_text]) /\
  forall garbage, exists d name' ats items, babel_parse_file garbage (decl ++ body) = Ok (Some d) /\ d_root d = Some (Node name' ats items) /\
    shows_items items [XText text; XElem (XNode name [] []); XText text; XElem (XNode name [] []); XText end_text].
Proof.
  exists latin_decl, (s2b "ISO-8859-1"), false, points_1, twice_body, twice_us, twice_text, twice_name, utf_e.
  split; [exact latin_decl_ok|]. split; [exact latin_charset|]. split; [exact twice_points|]. split; [exact twice_body_ok|].
  intros garbage. destruct (root_items_ok _ _ (twice_parsed garbage)) as (d & name & ats & E & R). exists d, name, ats, twice_items.
  split; [exact E|]. split; [exact R|]. apply shows_text, plain_shows, shows_text, plain_shows, shows_text, shows_nil.
Qed.
Print Assumptions C64_twice_refuted.

(** A document in UTF-8, declared as such, that is accepted without one of its elements. *)
Theorem C64_lost_refuted :
  exists decl e body text child,
  decl_text decl (Some e) false /\ reads e (str "utf8") /\ utf8 (decl ++ body) /\
  body_text body [] (XNode (s2b "a") [] [XText text; XElem child]) /\
  forall garbage, exists d name ats, babel_parse_file garbage (decl ++ body) = Ok (Some d) /\ d_root d = Some (Node name ats [IContent text]).
Proof.
  exists lost_decl, (s2b "utf-8"), lost_body, lost_first, (XNode (s2b "c") [] [XText lost_text]).
  split; [exact lost_decl_ok|]. split; [exact lost_reads|]. split; [exact lost_utf8|]. split; [exact lost_body_ok|].
  intros garbage. exact (root_items_ok _ _ (lost_parsed garbage)).
Qed.
Print Assumptions C64_lost_refuted.

(** The hypotheses can be met *)
Example C64_case_converting : full table_1 /\ (forall garbage, exists st, converting table_1 garbage mixed 2 st) /\
  exists us, code_points points_1 mixed = Some us.
Proof. split; [exact full_1|]. split; [exact mixed_converting|]. eexists. vm_compute. reflexivity. Qed.
Example C64_case_acts : exists st, converting table_1 0 (s2b "xy" ++ latin_e ++ s2b "z") 2 st /\
  always keeping [Take 1; More; Take 1; More] st /\ always careful [Take 1; More; Take 2; More] st /\
  exists st', run [Take 1; More; Take 2; More] st = Ok (utf_e ++ s2b "z", st') /\ closed st' /\ window st' = [] /\ ~ flagged st'.
Proof. exact reader. Qed.
Example C64_case_single : (exists st, converting table_1 2 early 43 st) /\ early <> [] /\
  (forall c, In c (skipn 43 early) -> length (written table_1 c) = 1) /\
  (forall c, In c (skipn 43 (firstn (Z.to_nat buffer_size) early)) -> length (written table_1 c) = 1) /\
  existsb (Ascii.eqb "&") (transcode table_1 early) = false.
Proof.
  split; [apply converting_exists; [exact full_1|apply PeanoNat.Nat.leb_le; vm_compute; reflexivity|vm_compute; discriminate]|].
  split; [discriminate|]. split; [intros c X; apply early_single, (skipn_in 43), X|].
  split; [|vm_compute; reflexivity]. intros c X. apply skipn_in in X. rewrite firstn_all2 in X by (apply PeanoNat.Nat.leb_le; vm_compute; reflexivity). apply early_single, X.
Qed.
