(** Definitions for the cases of the headers made from document type definitions. *)
From Verif Require Import Prelude StrModel StrSpec StreamModel XmlSpec DtdModel DtdDocModel LoadSpec LoadModel KnifeModel KnifeSpec KnifeProofs3.
From Verif Require KnifeProofs2.
Open Scope nat_scope.
Open Scope list_scope.

Definition dq : bytes := ["034"%char].
Definition path : bytes := str "/x/a-1.dtd".
Definition name : bytes := str "A_1_DTD".
Lemma path_name : macro_name path name.
Proof.
  exists (str "a-1.dtd"). split.
  - split; [intros H; cbn in H; repeat (destruct H as [H|H]; [discriminate|]); destruct H|]. right. exists (str "/x"). reflexivity.
  - repeat constructor.
Qed.
Lemma name_id : identifier name.
Proof. split; reflexivity. Qed.
Lemma keeps s : forallb (fun c => negb (Ascii.eqb c backslash) && negb (Ascii.eqb c cr) && negb (Ascii.eqb c NUL)) s = true -> Forall kept_char s.
Proof.
  rewrite forallb_forall, Forall_forall. intros H c I. specialize (H c I). apply andb_true_iff in H. destruct H as [H N3].
  apply andb_true_iff in H. destruct H as [N1 N2]. apply negb_true_iff in N1, N2, N3. apply Ascii.eqb_neq in N1, N2, N3. split; [exact N1|]. split; [exact N2|exact N3].
Qed.

(** two declarations on three lines, with a tabulator and double quotes *)
Definition two : bytes := str "<!ELEMENT a (b,c)>" ++ [nl; "009"%char] ++ str "<!ATTLIST a k CDATA " ++ [nl] ++ dq ++ str "v" ++ dq ++ str ">".
Definition two_decls : list decl :=
  [DElement (str "a") (CKids (Group Sequence TOne [Leaf (str "b") TOne; Leaf (str "c") TOne])); DAttlist (str "a") [AtDecl (str "k") ACdata AImplied (Some (str "v"))]].
Lemma two_text : dtd_text two two_decls.
Proof.
  replace two with ([] ++ (str "<!ELEMENT" ++ str " " ++ str "a" ++ str " " ++ (str "(" ++ ([] ++ (str "b" ++ []) ++ [] ++ [","%char] ++ ([] ++ (str "c" ++ []) ++ [])) ++ str ")" ++ []) ++ [] ++ str ">") ++
    [nl; "009"%char] ++ (str "<!ATTLIST" ++ str " " ++ str "a" ++ ((str " " ++ str "k" ++ str " " ++ str "CDATA" ++ str " " ++ [nl]) ++ (["034"%char] ++ str "v" ++ ["034"%char])) ++ [] ++ str ">") ++ []) by reflexivity.
  apply dtd_more; [constructor; reflexivity| |].
  - apply decl_element; try (split; (reflexivity || discriminate)).
    apply content_kids. apply (cp_group Sequence ","%char); [left; auto| |constructor].
    apply items_more; try reflexivity; [apply cp_name; [split; (discriminate || reflexivity)|constructor]|].
    apply items_last; try reflexivity. apply cp_name; [split; (discriminate || reflexivity)|constructor].
  - apply dtd_more; [constructor; reflexivity| |constructor; constructor; reflexivity].
    apply decl_attlist; try (split; (reflexivity || discriminate)); try reflexivity; try discriminate.
    rewrite <- (app_nil_r (_ ++ _)). apply atts_more; [|constructor].
    change ((str " " ++ str "k" ++ str " " ++ str "CDATA" ++ str " " ++ [nl]) ++ ["034"%char] ++ str "v" ++ ["034"%char])
      with (str " " ++ str "k" ++ str " " ++ str "CDATA" ++ (str " " ++ [nl]) ++ (["034"%char] ++ str "v" ++ ["034"%char])).
    apply AttText; try (split; (reflexivity || discriminate)); [constructor|]. apply default_value. constructor; [right; reflexivity| |reflexivity].
    intros [H|[]]. discriminate.
Qed.
Lemma two_plain : Forall decl_plain two_decls.
Proof.
  constructor; [exact Logic.I|]. constructor; [|constructor]. intros a v [<-|[]] [= <-]. split; [|split; [|split]]; intros [H|[]]; discriminate.
Qed.
Lemma two_small : fits two.
Proof. left. vm_compute. discriminate. Qed.

(** definitions that the header does not hold *)
Definition slash : bytes := str "<!ENTITY p '\n'>".
Definition apos : bytes := str "<!ENTITY p " ++ dq ++ str "'" ++ dq ++ str ">".
Definition lines : bytes := str "<!ENTITY p 'a" ++ [nl] ++ str "b'>".
Definition tabbed : bytes := str "<!ENTITY p '" ++ ["009"%char] ++ str "'>".
Definition entity_p (d : bytes) : option bytes :=
  match dtd_parse 20 d with Ok (Some (_, [e])) => en_content e | _ => None end.

Definition remark : bytes := str "*" ++ [nl] ++ str " * C inline representation for DTD a-1.dtd, created by axl-knife" ++ [nl] ++ str " ".
Definition guard : bytes := str "__A_1_DTD_H__".
Lemma remark_open : ~ occurs (str "*/") remark.
Proof.
  intros (u & v & E). assert (I : In "/"%char remark).
  { rewrite E. apply in_or_app. right. apply in_or_app. left. right. left. reflexivity. }
  cbn in I. repeat (destruct I as [I|I]; [discriminate|]). destruct I.
Qed.
Lemma guard_is : identifier guard.
Proof. split; reflexivity. Qed.
Definition header (body : bytes) : bytes := str "/*" ++ remark ++ str "*/" ++ [nl] ++
    str "#ifndef " ++ guard ++ [nl] ++ str "#define " ++ guard ++ [nl] ++
    str "#define " ++ name ++ str " " ++ (["034"%char] ++ body ++ ["034"%char]) ++ [nl] ++ str "#endif" ++ [nl].
Lemma header_is h body value : splice h = header body -> c_chars body value -> defines h name value.
Proof.
  intros E C. exists remark, guard, (["034"%char] ++ body ++ ["034"%char]). split; [exact E|]. split; [exact remark_open|]. split; [exact guard_is|].
  split; [exact name_id|]. split; [discriminate|]. exists body. auto.
Qed.
Ltac chars := repeat first [apply cc_nil | apply cc_line | apply cc_plain; [intros H; cbn in H; repeat (destruct H as [H|H]; [discriminate|]); destruct H|]].

Definition slash_value : bytes := [nl] ++ str "<!ENTITY p '" ++ [nl] ++ str "'>   " ++ [nl].
Lemma slash_wrong : exists h, dtd_to_c path slash = Ok h /\ defines h name slash_value.
Proof.
  eexists. split; [vm_compute; reflexivity|]. apply (header_is _ (str "\n<!ENTITY p '\n'>   \n")); [vm_compute; reflexivity|].
  cbn [str s2b list_ascii_of_string slash_value app]. chars.
Qed.
Definition apos_value : bytes := [nl] ++ str "<!ENTITY p '''>   " ++ [nl].
Lemma apos_wrong : exists h, dtd_to_c path apos = Ok h /\ defines h name apos_value.
Proof.
  eexists. split; [vm_compute; reflexivity|]. apply (header_is _ (str "\n<!ENTITY p '''>   \n")); [vm_compute; reflexivity|].
  cbn [str s2b list_ascii_of_string apos_value app]. chars.
Qed.
Definition lines_value : bytes := [nl] ++ str "<!ENTITY p 'a   b'>             " ++ [nl].
Lemma lines_wrong : exists h, dtd_to_c path lines = Ok h /\ defines h name lines_value.
Proof.
  eexists. split; [vm_compute; reflexivity|]. apply (header_is _ (str "\n<!ENTITY p 'a   b'>             \n")); [vm_compute; reflexivity|].
  cbn [str s2b list_ascii_of_string lines_value app]. chars.
Qed.
Definition two_value : bytes := [nl] ++ str "<!ELEMENT a (b,c)>       <!ATTLIST a k CDATA    'v'>                    " ++ [nl].
Lemma two_right : exists h, dtd_to_c path two = Ok h /\ defines h name two_value.
Proof.
  eexists. split; [vm_compute; reflexivity|]. apply (header_is _ (str "\n<!ELEMENT a (b,c)>       <!ATTLIST a k CDATA    'v'>                    \n")); [vm_compute; reflexivity|].
  cbn [str s2b list_ascii_of_string two_value app]. chars.
Qed.

(** a definition of one line and a byte more than the buffer *)
Definition pad : bytes := repeat " "%char (Z.to_nat 8174).
Definition cut_short : bytes := pad ++ str "   <!ELEMENT a EMPTY".
Lemma pad_length : Z.of_nat (length pad) = 8174%Z.
Proof. unfold pad. rewrite repeat_length. rewrite Z2Nat.id; lia. Qed.
Lemma cut_kept : Forall kept_char ([] ++ cut_short ++ [">"%char]).
Proof.
  cbn [app]. unfold cut_short. rewrite <- app_assoc. apply Forall_app. split; [|apply keeps; reflexivity].
  rewrite Forall_forall. intros c I. unfold pad in I. apply repeat_spec in I. subst c. split; [discriminate|]. split; discriminate.
Qed.
Lemma cut_line : ~ In nl cut_short.
Proof.
  intros I. unfold cut_short in I. apply in_app_iff in I. destruct I as [I|I].
  - unfold pad in I. apply repeat_spec in I. discriminate.
  - cbn in I. repeat (destruct I as [I|I]; [discriminate|]). destruct I.
Qed.
Lemma cut_long : (buffer_size < Z.of_nat (length ([] ++ cut_short ++ [">"%char])))%Z.
Proof. cbn [app]. unfold cut_short, buffer_size. rewrite !app_length, !Nat2Z.inj_add, pad_length. reflexivity. Qed.
Lemma two_well : declared_well two_decls.
Proof.
  constructor.
  - repeat constructor. intros [].
  - intros x. cbn [atts_of two_decls flat_map]. rewrite app_nil_r. destruct (bytes_eqb (str "a") x).
    + split; [|split].
      * intros a b [<-|[]] [<-|[]] _ _. reflexivity.
      * intros a [<-|[]] _. discriminate.
      * intros a vs v [<-|[]] E. discriminate.
    + split; [|split]; intros a; [intros b []|intros []|intros vs v []].
  - intros (x & l & a & I & J & E). exfalso. destruct I as [I|[I|[]]]; [discriminate|]. injection I as _ <-. destruct J as [<-|[]]. discriminate.
  - exists (fun y => if bytes_eqb y (str "a") then 1 else 0). intros x c y [I|[]] J. injection I as <- <-. cbn in J.
    destruct J as [<-|[<-|[]]]; cbn; lia.
Qed.
Lemma two_shown : groups_shown two_decls.
Proof. intros x p [I|[]]. injection I as _ <-. reflexivity. Qed.
Lemma digit_name n : macro_name (str "3d.dtd") n -> n = str "3D_DTD".
Proof.
  intros M. apply (KnifeProofs2.macro_fun _ _ _ M). exists (str "3d.dtd"). split; [|repeat constructor].
  split; [intros H; cbn in H; repeat (destruct H as [H|H]; [discriminate|]); destruct H|]. left. reflexivity.
Qed.
