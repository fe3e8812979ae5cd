(** C headers made from document type definitions. *)
From Verif Require Import Prelude StrSpec StreamModel XmlSpec DtdModel DtdSpec DtdDocModel LoadModel LoadSpec KnifeModel KnifeSpec KnifeProofs3 KnifeProofs4 KnifeCases.
Open Scope nat_scope.
Open Scope list_scope.

(** C69: the header defines one macro, named after the file, that a C compiler reads as a
    string: the text of the file with blanks for line ends and tabulators and with single
    quotes for double ones.
    Missing: texts with a backslash, which are read as something else, with a carriage
    return or a NUL, texts longer than the buffer without a line end after the last line,
    which lose their last byte, and files whose name does not make an identifier. *)
Theorem C69_header_partial : forall path content name, macro_name path name -> identifier name -> Forall kept_char content -> fits content ->
  exists h value t w, dtd_to_c path content = Ok h /\ defines h name value /\ value = [nl] ++ t ++ w ++ [nl] /\ flat content t /\ Forall (eq " "%char) w.
Proof. exact header_ok. Qed.
Print Assumptions C69_header_partial.
Example C69_header_case : macro_name path name /\ identifier name /\ Forall kept_char two /\ fits two /\
  exists h, dtd_to_c path two = Ok h /\ defines h name two_value.
Proof. split; [exact path_name|]. split; [exact name_id|]. split; [apply keeps; reflexivity|]. split; [exact two_small|exact two_right]. Qed.

(** so it holds the same declarations, and loading it gives them.
    Missing: as above, and declarations with values that have quotes, tabulators or line
    ends in them. *)
Theorem C69_same_partial : forall path content name ds, macro_name path name -> identifier name -> Forall kept_char content -> fits content ->
  dtd_text content ds -> Forall decl_plain ds ->
  exists h value, dtd_to_c path content = Ok h /\ defines h name value /\ dtd_text value ds.
Proof. exact same_dtd_ok. Qed.
Print Assumptions C69_same_partial.
Theorem C69_loads_partial : forall path content name ds, macro_name path name -> identifier name -> Forall kept_char content -> fits content ->
  dtd_text content ds -> Forall decl_plain ds -> declared_well ds -> groups_shown ds ->
  exists h value n, dtd_to_c path content = Ok h /\ defines h name value /\
    forall fuel, n <= fuel -> exists d ents, dtd_parse fuel value = Ok (Some (d, ents)) /\ loaded ds d ents.
Proof. exact same_loaded_ok. Qed.
Print Assumptions C69_loads_partial.
Example C69_same_case : macro_name path name /\ identifier name /\ Forall kept_char two /\ fits two /\ dtd_text two two_decls /\ Forall decl_plain two_decls /\
  declared_well two_decls /\ groups_shown two_decls /\ length two_decls = 2.
Proof.
  split; [exact path_name|]. split; [exact name_id|]. split; [apply keeps; reflexivity|]. split; [exact two_small|]. split; [exact two_text|].
  split; [exact two_plain|]. split; [exact two_well|]. split; [exact two_shown|reflexivity].
Qed.

(** a backslash and a letter become what they mean in C *)
Theorem C69_backslash_refuted : exists path content name h value, macro_name path name /\ identifier name /\ dtd_to_c path content = Ok h /\ defines h name value /\
  entity_p content = Some (str "\n") /\ entity_p value = Some [nl].
Proof.
  destruct slash_wrong as (h & E & D). exists path, slash, name, h, slash_value. split; [exact path_name|]. split; [exact name_id|].
  split; [exact E|]. split; [exact D|]. split; vm_compute; reflexivity.
Qed.
Print Assumptions C69_backslash_refuted.
(** a quote in a value ends it: the string is not accepted any more *)
Theorem C69_quote_refuted : exists path content name h value, macro_name path name /\ identifier name /\ dtd_to_c path content = Ok h /\ defines h name value /\
  entity_p content = Some (str "'") /\ dtd_parse 20 value = Ok None.
Proof.
  destruct apos_wrong as (h & E & D). exists path, apos, name, h, apos_value. split; [exact path_name|]. split; [exact name_id|].
  split; [exact E|]. split; [exact D|]. split; vm_compute; reflexivity.
Qed.
Print Assumptions C69_quote_refuted.
(** a value of two lines has other blanks in it *)
Theorem C69_line_refuted : exists path content name h value, macro_name path name /\ identifier name /\ dtd_to_c path content = Ok h /\ defines h name value /\
  entity_p content = Some (str "a" ++ [nl] ++ str "b") /\ entity_p value = Some (str "a   b").
Proof.
  destruct lines_wrong as (h & E & D). exists path, lines, name, h, lines_value. split; [exact path_name|]. split; [exact name_id|].
  split; [exact E|]. split; [exact D|]. split; vm_compute; reflexivity.
Qed.
Print Assumptions C69_line_refuted.
(** the macro of a file whose name begins with a digit is not one *)
Theorem C69_name_refuted : exists path content h, dtd_to_c path content = Ok h /\ forall name value, macro_name path name -> ~ defines h name value.
Proof.
  exists (str "3d.dtd"), two. eexists. split; [vm_compute; reflexivity|]. intros n v M (c & g & l & _ & _ & _ & I & _).
  rewrite (digit_name n M) in I. destruct I as [I _]. discriminate.
Qed.
Print Assumptions C69_name_refuted.
(** when the last line, not ended, begins in the first buffer and goes beyond it, its last
    byte is lost *)
Theorem C69_lost_byte : forall path a w z name, macro_name path name -> identifier name -> Forall kept_char (a ++ w ++ [z]) ->
  (a = [] \/ exists a', a = a' ++ [nl]) -> ~ In nl w -> z <> nl ->
  (Z.of_nat (length a) < 8192)%Z -> (8192 < Z.of_nat (length (a ++ w ++ [z])))%Z ->
  exists h value t b, dtd_to_c path (a ++ w ++ [z]) = Ok h /\ defines h name value /\ value = [nl] ++ t ++ b ++ [nl] /\ flat (a ++ w) t /\ Forall (eq " "%char) b.
Proof. exact header_lost. Qed.
Print Assumptions C69_lost_byte.
Example C69_lost_case : macro_name path name /\ identifier name /\ Forall kept_char ([] ++ cut_short ++ [">"%char]) /\ ~ In nl cut_short /\
  (8192 < Z.of_nat (length ([] ++ cut_short ++ [">"%char])))%Z.
Proof. split; [exact path_name|]. split; [exact name_id|]. split; [exact cut_kept|]. split; [exact cut_line|exact cut_long]. Qed.
