(** Concrete documents saved to files. *)
From Verif Require Import Prelude StrModel StrSpec StrProofs AttrModel TreeModel StreamModel ParseModel DumpModel XmlSpec ParseProofs
  FileSpec FileCases SaveModel SaveSpec SaveProofs SaveProofs2.

Definition good_disk : disk := Disk true (N.to_nat 9000) (N.to_nat 9000).
(** the disk fills up while fclose writes what stdio kept *)
Definition late_disk : disk := Disk true (N.to_nat 9000) 0.
Definition saved_as (r : res (bool * option bytes)) : option bytes := match r with Ok (true, Some t) => Some t | _ => None end.

(** ** a plain document larger than the buffer *)
Definition t_large : bytes := txt 8161.
Definition n_large : node := Node (s2b "aaa") no_attrs [IContent t_large].
Definition x_large : xnode := XNode (s2b "aaa") [] [XText t_large].
Definition d_large : doc := Doc (Some n_large) None false [].
Lemma shows_large : shows n_large x_large.
Proof. econstructor; [reflexivity|constructor|]. constructor. constructor. Qed.
Lemma txt_has c n : Ascii.eqb c "x" = false -> has c (txt n) = false.
Proof. intros H. unfold txt, has. induction (N.to_nat n) as [|k IH]; [reflexivity|]. cbn [repeat existsb]. rewrite H, IH. reflexivity. Qed.
Lemma txt_nul n : nul_free (txt n).
Proof. unfold txt, nul_free. intros H. apply repeat_spec in H. discriminate. Qed.
Lemma large_head : hd NUL t_large = "x"%char. Proof. vm_cast_no_check (eq_refl "x"%char). Qed.
Lemma large_not_blank : ~ XmlSpec.blank t_large.
Proof.
  unfold XmlSpec.blank. pose proof large_head as H. destruct t_large as [|c t]; [discriminate|]. cbn [hd] in H. subst c. cbn. discriminate.
Qed.
Lemma proper_large : proper x_large.
Proof.
  constructor; [split; [discriminate|reflexivity]|constructor|constructor|]. constructor.
  - discriminate.
  - apply txt_nul.
  - apply large_not_blank.
  - apply txt_has. reflexivity.
  - discriminate.
  - constructor.
Qed.
Lemma sober_large : sober x_large.
Proof. constructor; [constructor|]. constructor; [apply txt_has; reflexivity|rewrite large_head; reflexivity|constructor]. Qed.
Lemma basic_large : basic x_large.
Proof. constructor; [constructor|]. constructor. constructor. Qed.
Definition f_large : bytes := s2b "<?xml version='1.0' ?><aaa>" ++ t_large ++ s2b "</aaa>".
Lemma save_large : doc_dump_to_file good_disk None d_large = Ok (true, Some f_large).
Proof. vm_cast_no_check (eq_refl (Ok (true, Some f_large))). Qed.
Lemma load_large : rejected (doc_parse_file f_large) = true.
Proof. vm_cast_no_check (eq_refl true). Qed.
Lemma parse_large : accepted (doc_parse f_large) = true.
Proof. vm_cast_no_check (eq_refl true). Qed.

(** ** a text that begins with a blank *)
Definition d_blank : doc := Doc (Some (Node (s2b "a") no_attrs [IContent (s2b " xy")])) None false [].
Definition f_blank : bytes := s2b "<?xml version='1.0' ?><a> xy</a>".
Lemma save_blank : doc_dump_to_file good_disk None d_blank = Ok (true, Some f_blank).
Proof. vm_compute. reflexivity. Qed.
Lemma load_blank : root_kids (doc_parse_file f_blank) = Some [IContent (s2b "xy")].
Proof. vm_compute. reflexivity. Qed.

(** ** a node saved without asking for layout *)
Definition n_two : node := Node (s2b "a") no_attrs [IContent (s2b "t"); INode (Node (s2b "b") no_attrs [])].

(** ** a document that comes back *)
Definition at_k : attrs := match set_attribute_core no_attrs (s2b "k") (Some (s2b "it's")) true with Ok (a, _) => a | _ => no_attrs end.
Definition n_back : node := Node (s2b "a") at_k
  [INode (Node (s2b "b") no_attrs [IContent (s2b "t &amp; u ")]); INode (Node (s2b "c") no_attrs []); IComment (s2b "note")].
Definition x_back : xnode := XNode (s2b "a") [(s2b "k", Some (s2b "it's"))]
  [XElem (XNode (s2b "b") [] [XText (s2b "t &amp; u ")]); XElem (XNode (s2b "c") [] []); XComment (s2b "note")].
Definition lf : bytes := ["010"%char].
Definition f_back : bytes := s2b "<?xml version='1.0' encoding='utf-8' ?>" ++ lf ++ s2b "<a k=""it's"">" ++ lf ++ s2b "  <b>t &amp; u </b>" ++ lf ++
  s2b "  <c />" ++ lf ++ s2b "  <!-- note -->" ++ lf ++ s2b "</a>" ++ lf.
Lemma shows_back : shows n_back x_back.
Proof.
  econstructor; [vm_compute; reflexivity|constructor; constructor|].
  constructor; [econstructor; [reflexivity|constructor|]; repeat constructor|].
  constructor; [econstructor; [reflexivity|constructor|]; constructor|]. constructor. constructor.
Qed.
Lemma proper_back : proper x_back.
Proof.
  constructor; [split; [discriminate|reflexivity]| |repeat constructor; simpl; tauto|].
  - constructor; [|constructor]. split; [split; [discriminate|reflexivity]|]. split; [discriminate|].
    eexists. split; [reflexivity|]. split; [nf|right; reflexivity].
  - constructor; [constructor; [split; [discriminate|reflexivity]|constructor|constructor|]|].
    + constructor; [discriminate|nf|discriminate|reflexivity|discriminate|constructor].
    + constructor; [constructor; [split; [discriminate|reflexivity]|constructor|constructor|constructor]|].
      constructor; [|constructor]. split; [discriminate|].
      intros (u & v & E). assert (L : length (s2b "note") = length (u ++ str "-->" ++ v)) by (rewrite E; reflexivity).
      rewrite !app_length in L. cbn [length s2b str list_ascii_of_string] in L. cbn in L.
      destruct u as [|a [|b u]]; [discriminate E|discriminate E|cbn [length] in L; lia].
Qed.
Lemma sober_back : sober x_back.
Proof.
  constructor.
  - constructor; [|constructor]. intros v E. injection E as <-. reflexivity.
  - constructor; [constructor; [constructor|]; constructor; [reflexivity|reflexivity|constructor]|].
    constructor; [constructor; constructor|]. constructor; [reflexivity|constructor].
Qed.
Lemma unmixed_back : unmixed x_back.
Proof.
  constructor; [left; reflexivity|]. constructor; [constructor; [right; reflexivity|]; apply unmixed_other; [discriminate|constructor]|].
  constructor; [constructor; [left; reflexivity|constructor]|]. apply unmixed_other; [discriminate|constructor].
Qed.
Lemma save_back : doc_dump_pretty_to_file good_disk None (Doc (Some n_back) (Some (s2b "utf-8")) false []) 2 = Ok (true, Some f_back).
Proof. vm_compute. reflexivity. Qed.
