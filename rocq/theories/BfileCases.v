(** Files that are converted while they are read: documents. *)
From Coq Require Import NArith ZArith Lia.
From Verif Require Import Prelude StrModel StrSpec StrProofs EscProofs AttrModel TreeModel StreamModel ParseModel XmlSpec ParseProofs CutSpec CutCases
  BabelModel BabelTables BabelPoints BabelSpec BabelExec BabelProofs BabelProofs2 BabelProofs3 BdocModel BdocSpec BdocCases FileCases BfileSpec BfileProofs2.
Open Scope nat_scope.
Open Scope list_scope.

Lemma free_check s : existsb (Ascii.eqb NUL) s = false -> nul_free s.
Proof. intros H X. assert (E : existsb (Ascii.eqb NUL) s = true) by (apply existsb_exists; exists NUL; split; [exact X|apply Ascii.eqb_refl]). congruence. Qed.
Lemma not_blank s : forallb white s = false -> ~ blank s.
Proof. unfold blank. congruence. Qed.
Definition root_items (r : res (option doc)) : option (list item) :=
  match r with Ok (Some d) => match d_root d with Some (Node _ _ l) => Some l | None => None end | _ => None end.
Lemma root_items_ok r l : root_items r = Some l -> exists d name ats, r = Ok (Some d) /\ d_root d = Some (Node name ats l).
Proof.
  unfold root_items. destruct r as [[d|]| |]; try discriminate. destruct (d_root d) as [[name ats l']|] eqn:E; [|discriminate].
  intros H. injection H as ->. exists d, name, ats. auto.
Qed.
Definition plain (name : bytes) : item := INode (Node name no_attrs []).
Lemma plain_shows name l m : shows_items l m -> shows_items (plain name :: l) (XElem (XNode name [] []) :: m).
Proof. intros H. constructor; [|exact H]. econstructor; [reflexivity|constructor|constructor]. Qed.

(** ** a document of ISO-8859-1 with its content twice *)
Definition es (n : nat) : bytes := concat (repeat utf_e n).
Definition twice_body : bytes := s2b "<a>" ++ repeat "233"%char 45 ++ txt 8088 ++ s2b "<cccccccccc/>" ++ latin_e ++ s2b "</a>".
Definition twice_us : list N := map N_of_ascii twice_body.
Definition twice_text : bytes := es 45 ++ txt 8088.
Definition twice_name : bytes := s2b "cccccccccc".
Definition twice_tree : xnode := XNode (s2b "a") [] [XText twice_text; XElem (XNode twice_name [] []); XText utf_e].
Lemma twice_points : code_points points_1 twice_body = Some twice_us.
Proof. vm_cast_no_check (eq_refl (Some twice_us)). Qed.
Lemma twice_encoded : encode_all twice_us = s2b "<a>" ++ (twice_text ++ (s2b "<cccccccccc/>" ++ (utf_e ++ []))) ++ s2b "</a>".
Proof. vm_cast_no_check (eq_refl (encode_all twice_us)). Qed.
Lemma twice_body_ok : body_text (encode_all twice_us) [] twice_tree.
Proof.
  rewrite twice_encoded. apply (Body [] [] [] [] _ twice_tree); [constructor; reflexivity|constructor|constructor; reflexivity|].
  apply (elem_full (s2b "a") [] [] [] (twice_text ++ (s2b "<cccccccccc/>" ++ (utf_e ++ []))) _ []); try reflexivity; [case_tac|constructor| |cbn; lia].
  apply content_text_fresh; [apply free_check; vm_compute; reflexivity|apply not_blank; vm_compute; reflexivity|vm_compute; reflexivity|].
  apply (content_elem AfterText [] (s2b "<cccccccccc/>") (XNode twice_name [] []) (utf_e ++ [])); [split; reflexivity| |].
  - apply (elem_empty twice_name [] [] []); [case_tac|constructor|reflexivity].
  - apply content_text_fresh; [nf|discriminate|reflexivity|]. constructor. split; reflexivity.
Qed.
Definition twice_items : list item := [IContent twice_text; plain twice_name; IContent twice_text; plain twice_name; IContent utf_e].
Lemma twice_parsed garbage : root_items (babel_parse_file garbage (latin_decl ++ twice_body)) = Some twice_items.
Proof. vm_cast_no_check (eq_refl (Some twice_items)). Qed.

(** ** a document of UTF-8 with an element lost *)
Definition lost_decl : bytes := s2b "<?xml version='1.0' encoding='utf-8'?>".
Lemma lost_decl_ok : decl_text lost_decl (Some (s2b "utf-8")) false.
Proof.
  apply (Decl (s2b " ") [] "'" (s2b " ") (s2b "encoding='utf-8'") (Some (s2b "utf-8")) [] [] None []); try reflexivity; try (left; reflexivity); try discriminate.
  apply (field_some (str "encoding") "'" (s2b "utf-8")); try reflexivity; [left; reflexivity|nf].
Qed.
Lemma lost_reads : reads (s2b "utf-8") (s2b "utf8").
Proof. exists (s2b "utf-8"). split; [exists [], []; repeat split; reflexivity|]. apply case_eqb_ok. reflexivity. Qed.
(** the last byte of the second block of the file and the first of the third are one character *)
Definition lost_first : bytes := txt 8150.
Definition lost_text : bytes := txt 8188 ++ utf_e ++ txt 8185.
Definition lost_body : bytes := s2b "<a>" ++ (lost_first ++ ((s2b "<c>" ++ (lost_text ++ []) ++ s2b "</c>") ++ [])) ++ s2b "</a>".
Definition lost_tree : xnode := XNode (s2b "a") [] [XText lost_first; XElem (XNode (s2b "c") [] [XText lost_text])].
Lemma lost_body_ok : body_text lost_body [] lost_tree.
Proof.
  apply (Body [] [] [] [] lost_body lost_tree); [constructor; reflexivity|constructor|constructor; reflexivity|]. unfold lost_body.
  apply (elem_full (s2b "a") [] [] [] _ _ []); try reflexivity; [case_tac|constructor| |cbn; lia].
  apply content_text_fresh; [apply free_check; vm_compute; reflexivity|apply not_blank; vm_compute; reflexivity|vm_compute; reflexivity|].
  apply (content_elem AfterText []); [split; reflexivity| |constructor; split; reflexivity].
  apply (elem_full (s2b "c") [] [] [] _ _ []); try reflexivity; [case_tac|constructor| |cbn; lia].
  apply content_text_fresh; [apply free_check; vm_compute; reflexivity|apply not_blank; vm_compute; reflexivity|vm_compute; reflexivity|].
  constructor. split; reflexivity.
Qed.
Lemma concat_single (l : bytes) : concat (map (fun c => [c]) l) = l.
Proof. induction l; cbn; congruence. Qed.
Lemma lost_utf8 : utf8 (lost_decl ++ lost_body).
Proof.
  assert (E : lost_decl ++ lost_body = (lost_decl ++ s2b "<a>" ++ lost_first ++ s2b "<c>" ++ txt 8188) ++ (utf_e ++ (txt 8185 ++ s2b "</c></a>"))).
  { vm_cast_no_check (eq_refl (lost_decl ++ lost_body)). }
  rewrite E. apply ascii_utf8; [apply ascii_list; vm_compute; reflexivity|].
  exists (utf_e :: map (fun c => [c]) (txt 8185 ++ s2b "</c></a>")). split.
  - constructor; [apply u2; split; vm_compute; discriminate|]. apply Forall_forall. intros x I. apply in_map_iff in I. destruct I as (c & <- & I). constructor.
    assert (F : Forall is_ascii (txt 8185 ++ s2b "</c></a>")) by (apply ascii_list; vm_compute; reflexivity).
    rewrite Forall_forall in F. specialize (F c I). unfold is_ascii, rng in *. lia.
  - cbn [concat]. rewrite concat_single. reflexivity.
Qed.
Lemma lost_parsed garbage : root_items (babel_parse_file garbage (lost_decl ++ lost_body)) = Some [IContent lost_first].
Proof. vm_cast_no_check (eq_refl (Some [IContent lost_first])). Qed.

(** ** files that end too early, and files of several blocks *)
Definition early : bytes := latin_decl ++ s2b "<a>" ++ txt 20.
Definition long_body : bytes := s2b "<a>" ++ txt 8200 ++ s2b "</a>".
Definition long_us : list N := map N_of_ascii long_body.
Lemma long_points : code_points points_1 long_body = Some long_us.
Proof. vm_cast_no_check (eq_refl (Some long_us)). Qed.
Lemma long_encoded : encode_all long_us = s2b "<a>" ++ (txt 8200 ++ []) ++ s2b "</a>".
Proof. vm_cast_no_check (eq_refl (encode_all long_us)). Qed.
Lemma long_body_ok : body_text (encode_all long_us) [] (XNode (s2b "a") [] [XText (txt 8200)]).
Proof.
  rewrite long_encoded. apply (Body [] [] [] [] _ (XNode (s2b "a") [] [XText (txt 8200)])); [constructor; reflexivity|constructor|constructor; reflexivity|].
  apply (elem_full (s2b "a") [] [] [] (txt 8200 ++ []) _ []); try reflexivity; [case_tac|constructor| |cbn; lia].
  apply content_text_fresh; [apply free_check; vm_compute; reflexivity|apply not_blank; vm_compute; reflexivity|vm_compute; reflexivity|].
  constructor. split; reflexivity.
Qed.
Lemma early_0 : babel_parse_file 0 early = Ok None.
Proof. vm_compute. reflexivity. Qed.
Lemma early_2 : babel_parse_file 2 early = NoFuel.
Proof. vm_compute. reflexivity. Qed.
Lemma long_2 : babel_parse_file 2 (latin_decl ++ long_body) = NoFuel.
Proof. vm_cast_no_check (eq_refl (@NoFuel (option doc))). Qed.

(** ** tables *)
Lemma full_1 : full table_1.
Proof. apply (proj1 (tables_ok table_1 points_1 (or_introl eq_refl))). Qed.
Definition mixed : bytes := s2b "xy" ++ latin_e ++ s2b "z" ++ txt 10000 ++ latin_e.
Lemma mixed_converting garbage : exists st, converting table_1 garbage mixed 2 st.
Proof. apply converting_exists; [exact full_1|apply Nat.leb_le; vm_compute; reflexivity|vm_compute; discriminate]. Qed.
Lemma early_single : forall c, In c early -> length (written table_1 c) = 1.
Proof.
  assert (H : forallb (fun c => length (written table_1 c) =? 1) early = true) by (vm_compute; reflexivity).
  rewrite forallb_forall in H. intros c X. apply Nat.eqb_eq, H, X.
Qed.
Lemma skipn_in {A} n (l : list A) x : In x (skipn n l) -> In x l.
Proof. intros H. rewrite <- (firstn_skipn n l). apply in_or_app. auto. Qed.

(** ** a reader *)
Fixpoint check (allowed : stream -> act -> bool) (acts : list act) (st : stream) : bool :=
  match acts with
  | [] => true
  | Take n :: r => allowed st (Take n) && check allowed r (stream_move st (s_idx st + Z.of_nat n))
  | More :: r => allowed st More && match prebuffer st with Ok (st', _) => check allowed r st' | _ => true end
  end.
Lemma check_ok allowed (P : stream -> act -> Prop) : (forall st a, allowed st a = true -> P st a) -> forall acts st, check allowed acts st = true -> always P acts st.
Proof.
  intros H acts. induction acts as [|[n|] acts IH]; intros st C; cbn [check always] in *; trivial; apply andb_prop in C; destruct C as (C1 & C2).
  - split; [apply H, C1|apply IH, C2].
  - split; [apply H, C1|]. intros st' b E. rewrite E in C2. apply IH, C2.
Qed.
Definition keeping_b (st : stream) (a : act) : bool := match a with Take n => n <? length (window st) | More => true end.
Definition flagged_b (st : stream) : bool := match s_kind st with FDX _ (HDecode _ _ true _) => true | _ => false end.
Definition empty_b (st : stream) : bool := match window st with [] => true | _ => false end.
Definition careful_b (st : stream) (a : act) : bool :=
  match a with Take n => n <=? length (window st) | More => negb (flagged_b st) || negb (empty_b st) end.
Definition closed_b (st : stream) : bool := match s_kind st with FD None | FDX None _ => true | _ => false end.
Lemma flagged_ok st : flagged_b st = true <-> flagged st.
Proof. unfold flagged_b, flagged. destruct (s_kind st) as [| |f [|t k [] g]]; split; try discriminate; auto; intros []. Qed.
Lemma keeping_ok st a : keeping_b st a = true -> keeping st a.
Proof. destruct a; cbn [keeping_b keeping]; trivial. apply Nat.ltb_lt. Qed.
Lemma careful_b_ok st a : careful_b st a = true -> careful st a.
Proof.
  destruct a; cbn [careful_b careful]; [apply Nat.leb_le|]. intros H F. apply flagged_ok in F. rewrite F in H. cbn [negb orb] in H.
  unfold empty_b in H. destruct (window st); [discriminate|discriminate].
Qed.
Lemma closed_ok st : closed_b st = true -> closed st.
Proof. unfold closed_b, closed. destruct (s_kind st) as [|[]|[] h]; try discriminate; auto. Qed.
Definition short : bytes := s2b "xy" ++ latin_e ++ s2b "z".
Definition keepers : list act := [Take 1; More; Take 1; More].
Definition takers : list act := [Take 1; More; Take 2; More].
Definition reader_ok (st : stream) : bool :=
  check keeping_b keepers st && (check careful_b takers st &&
  match run takers st with
  | Ok (out, st') => bytes_eqb out (utf_e ++ s2b "z") && (closed_b st' && (empty_b st' && negb (flagged_b st')))
  | _ => false
  end).
Lemma started (P : stream -> bool) t content : match stream_file content with
  | Ok st0 => (2 <=? s_size st0)%Z && match setup_decode 0 (stream_move st0 2) t with Ok (Some st) => P st | _ => false end
  | _ => false
  end = true -> exists st, converting t 0 content 2 st /\ P st = true.
Proof.
  destruct (stream_file content) as [st0| |] eqn:E; try discriminate. intros H. apply andb_prop in H. destruct H as (H1 & H2).
  destruct (setup_decode 0 (stream_move st0 2) t) as [[st|]| |] eqn:E2; try discriminate. exists st. split; [|exact H2].
  exists st0. split; [exact E|]. split; [apply Z.leb_le, H1|exact E2].
Qed.
Lemma reader : exists st, converting table_1 0 short 2 st /\ always keeping keepers st /\ always careful takers st /\
  exists st', run takers st = Ok (utf_e ++ s2b "z", st') /\ closed st' /\ window st' = [] /\ ~ flagged st'.
Proof.
  destruct (started reader_ok table_1 short) as (st & C & H); [vm_compute; reflexivity|]. exists st. split; [exact C|]. unfold reader_ok in H.
  apply andb_prop in H. destruct H as (H1 & H). apply andb_prop in H. destruct H as (H2 & H).
  split; [exact (check_ok _ _ keeping_ok _ _ H1)|]. split; [exact (check_ok _ _ careful_b_ok _ _ H2)|].
  destruct (run takers st) as [(out, st')| |]; try discriminate. apply andb_prop in H. destruct H as (H3 & H). apply andb_prop in H. destruct H as (H4 & H).
  apply andb_prop in H. destruct H as (H5 & H6). apply bytes_eqb_eq in H3. subst out. exists st'. split; [reflexivity|]. split; [apply closed_ok, H4|].
  split; [unfold empty_b in H5; destruct (window st'); [reflexivity|discriminate]|]. intros F. apply flagged_ok in F. rewrite F in H6. discriminate.
Qed.
