(** Documents in other encodings. *)
From Coq Require Import NArith.
From Verif Require Import Prelude StrSpec StrProofs EscProofs AttrModel TreeModel StreamModel ParseModel XmlSpec ParseProofs CutSpec CutCases
  BabelPoints BabelSpec BabelProofs BdocModel BdocSpec.
Open Scope list_scope.

(** é in ISO-8859-1 and in UTF-8 *)
Definition latin_e : bytes := ["233"%char].
Definition utf_e : bytes := ["195"; "169"]%char.
Definition latin_decl : bytes := s2b "<?xml version='1.0' encoding='ISO-8859-1'?>".
Definition latin_front : bytes := s2b " <!-- " ++ latin_e ++ s2b " --> ".
Definition latin_root : bytes := s2b "<a b='" ++ latin_e ++ s2b "'>" ++ latin_e ++ latin_e ++ s2b "</a>".
Definition latin_us : list N := map N_of_ascii latin_front.
Definition latin_vs : list N := map N_of_ascii latin_root.
Definition latin_tree : xnode := XNode (s2b "a") [(s2b "b", Some utf_e)] [XText (utf_e ++ utf_e)].
Lemma latin_decl_ok : decl_text latin_decl (Some (s2b "ISO-8859-1")) false.
Proof.
  apply (Decl (s2b " ") [] "'" (s2b " ") (s2b "encoding='ISO-8859-1'") (Some (s2b "ISO-8859-1")) [] [] None []); try reflexivity; try (left; reflexivity); try discriminate.
  - apply (field_some (str "encoding") "'" (s2b "ISO-8859-1")); try reflexivity; [left; reflexivity|nf].
Qed.
Lemma latin_charset : charset (s2b "ISO-8859-1") points_1.
Proof.
  exists (s2b "iso88591"). split; [left; reflexivity|]. exists (s2b "ISO-8859-1"). split; [exists [], []; repeat split; reflexivity|].
  apply case_eqb_ok. reflexivity.
Qed.
Lemma latin_front_ok : code_points points_1 latin_front = Some latin_us /\ encode_all latin_us = (s2b " <!-- " ++ utf_e ++ s2b " --> ") ++ [] ++ [] /\
  misc_text false (s2b " <!-- " ++ utf_e ++ s2b " --> ") [].
Proof.
  split; [reflexivity|]. split; [reflexivity|].
  apply (misc_comment false (s2b " ") (s2b " " ++ utf_e ++ s2b " ") (s2b " ") []); [reflexivity|split; [discriminate|no_occ]|constructor; reflexivity].
Qed.
Lemma latin_root_ok : code_points points_1 latin_root = Some latin_vs /\ elem_text (encode_all latin_vs) latin_tree /\ tame latin_tree.
Proof.
  split; [reflexivity|]. split.
  - apply (elem_full (s2b "a") (s2b " b='" ++ utf_e ++ s2b "'") [(s2b "b", Some utf_e)] [] (utf_e ++ utf_e) [XText (utf_e ++ utf_e)] []); try reflexivity.
    + case_tac.
    + apply (attrs_more (s2b " ") (s2b "b") "'" utf_e [] []); try reflexivity; try discriminate; [case_tac|left; reflexivity|nf|constructor|intros []].
    + apply (content_text_fresh (utf_e ++ utf_e) []); [nf|discriminate|reflexivity|]. constructor. split; reflexivity.
    + cbn; lia.
  - constructor; [constructor; [intros v H; injection H as <-; reflexivity|constructor]|]. apply tame_other; [discriminate|constructor].
Qed.
Lemma latin_body : code_points points_1 (latin_front ++ latin_root) = Some (latin_us ++ latin_vs) /\ body_text (encode_all (latin_us ++ latin_vs)) [] latin_tree.
Proof.
  split; [reflexivity|]. destruct latin_front_ok as (_ & E1 & M). destruct latin_root_ok as (_ & E2 & _).
  replace (encode_all (latin_us ++ latin_vs)) with ((s2b " <!-- " ++ utf_e ++ s2b " --> ") ++ [] ++ [] ++ encode_all latin_vs) by reflexivity.
  constructor; [exact M|constructor|constructor; reflexivity|exact E2].
Qed.
(** a declaration of UTF-8 *)
Definition utf_decl : bytes := s2b "<?xml version='1.0' encoding=' UTF-8 '?>".
Lemma utf_decl_ok : decl_text utf_decl (Some (s2b " UTF-8 ")) false.
Proof.
  apply (Decl (s2b " ") [] "'" (s2b " ") (s2b "encoding=' UTF-8 '") (Some (s2b " UTF-8 ")) [] [] None []); try reflexivity; try (left; reflexivity); try discriminate.
  apply (field_some (str "encoding") "'" (s2b " UTF-8 ")); try reflexivity; [left; reflexivity|nf].
Qed.
Lemma utf_reads : reads (s2b " UTF-8 ") (s2b "utf8").
Proof. exists (s2b "UTF-8"). split; [exists (s2b " "), (s2b " "); repeat split; reflexivity|]. apply case_eqb_ok. reflexivity. Qed.
(** an encoding that is not known *)
Definition koi_decl : bytes := s2b "<?xml version='1.0' encoding='koi8-r'?>".
Lemma koi_decl_ok : decl_text koi_decl (Some (s2b "koi8-r")) false.
Proof.
  apply (Decl (s2b " ") [] "'" (s2b " ") (s2b "encoding='koi8-r'") (Some (s2b "koi8-r")) [] [] None []); try reflexivity; try (left; reflexivity); try discriminate.
  apply (field_some (str "encoding") "'" (s2b "koi8-r")); try reflexivity; [left; reflexivity|nf].
Qed.
Lemma koi_reads name : reads (s2b "koi8-r") name -> case_eqb (s2b "koi8r") name = true.
Proof.
  intros (t & (l & r & E & W1 & W2 & A & B) & F).
  assert (El : l = []). { destruct l as [|c l]; [reflexivity|]. cbn in E. injection E as <- _. discriminate. }
  subst l. cbn [app] in E.
  assert (Er : r = []).
  { destruct (rev r) as [|c r'] eqn:R; [apply (f_equal (@rev _)) in R; rewrite rev_involutive in R; exact R|].
    apply (f_equal (@rev _)) in E. rewrite rev_app_distr, R in E. cbn in E. injection E as <- _.
    assert (I : In "r"%char r) by (apply in_rev; rewrite R; left; reflexivity). rewrite forallb_forall in W2. apply W2 in I. discriminate. }
  subst r. rewrite app_nil_r in E. subst t. apply case_eqb_ok. exact F.
Qed.
Lemma koi_unknown : ~ reads (s2b "koi8-r") (s2b "utf8") /\ forall p, ~ charset (s2b "koi8-r") p.
Proof.
  split; [intros H; apply koi_reads in H; discriminate|]. intros p (name & I & R). apply koi_reads in R. unfold charsets in I. cbn [In] in I.
  repeat (destruct I as [I|I]; [injection I as <- _; discriminate R|]). destruct I.
Qed.
(** a file with a character of two bytes where the buffer of the stream ends *)
Definition straddling : bytes := utf_decl ++ s2b "<a>" ++ repeat "x"%char (N.to_nat 8191 - length (utf_decl ++ s2b "<a>")) ++ utf_e ++ s2b "</a>".
Lemma ascii_utf8 s l : Forall is_ascii s -> utf8 l -> utf8 (s ++ l).
Proof.
  intros F (parts & P & <-). exists (map (fun c => [c]) s ++ parts). split.
  - apply Forall_app. split; [|exact P]. apply Forall_forall. intros x I. apply in_map_iff in I. destruct I as (c & <- & I). constructor.
    rewrite Forall_forall in F. specialize (F c I). unfold is_ascii, rng in *. lia.
  - rewrite concat_app. f_equal. clear. induction s; cbn; congruence.
Qed.
Lemma ascii_list s : forallb (fun c => N.ltb (N_of_ascii c) 128) s = true -> Forall is_ascii s.
Proof. intros H. rewrite forallb_forall in H. apply Forall_forall. intros c I. apply N.ltb_lt, H, I. Qed.
Lemma straddling_utf8 : utf8 straddling.
Proof.
  unfold straddling. repeat (apply ascii_utf8; [apply ascii_list; vm_compute; reflexivity|]).
  exists (utf_e :: map (fun c => [c]) (s2b "</a>")). split; [|reflexivity]. constructor; [apply u2; split; vm_compute; discriminate|].
  cbn [map s2b list_ascii_of_string]. repeat (constructor; [apply u1; split; vm_compute; discriminate|]). constructor.
Qed.
Lemma utf_e_row : row shape (s2b "<a>" ++ utf_e ++ s2b "</a>") /\ ~ row shape (s2b "<a>" ++ latin_e ++ s2b "</a>").
Proof.
  split.
  - apply (BabelProofs.check_accepts _ [NUL]). vm_compute. reflexivity.
  - intros R. apply (BabelProofs.check_accepts _ [NUL]) in R. vm_compute in R. discriminate.
Qed.
