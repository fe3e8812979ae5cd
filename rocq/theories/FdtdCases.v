(** A document type definition as it is in a file. *)
From Verif Require Import Prelude StrSpec StreamModel StreamProofs ParseModel ParseProofs XmlSpec DtdModel DtdSpec DtdDocModel DtdDocSpec LoadModel LoadSpec LoadProofs LoadProofs5 LoadProofs6 LoadProofs7 LoadProofs8 LoadProofs9 LoadCases.
Open Scope nat_scope.
Open Scope list_scope.

Definition lines : bytes := [] ++ t_doc ++ ["010"%char] ++ t_head ++ ["010"%char].
Definition lines_decls : list decl := [DElement (str "doc") (CKids p_doc); DElement (str "head") CText].
Lemma lines_text : dtd_text lines lines_decls.
Proof.
  apply dtd_more; [constructor; reflexivity| |apply dtd_more; [constructor; reflexivity| |constructor; constructor; reflexivity]].
  - apply decl_element; [gap|tok|gap| |reflexivity]. apply content_kids.
    apply (cp_group Sequence ","); [left; auto| |constructor].
    apply items_more; [reflexivity|apply cp_name; [tok|constructor]|reflexivity|]. apply items_last; [reflexivity|apply cp_name; [tok|constructor]|reflexivity].
  - apply decl_element; [gap|tok|gap| |reflexivity]. constructor; solve [reflexivity|constructor|left; reflexivity|right; reflexivity].
Qed.
Lemma lines_well : declared_well lines_decls.
Proof.
  split.
  - repeat constructor; intros I; cbn in I; repeat (destruct I as [I|I]; [discriminate|]); destruct I.
  - intros x. split; [|split]; [intros a b []|intros a []|intros a vs v []].
  - intros (x & l & a & I & _). cbn in I. repeat (destruct I as [I|I]; [discriminate|]). destruct I.
  - exists (fun x => if bytes_eqb x (str "doc") then 1 else 0). intros x c y [[= <- <-]|[[= <- <-]|[]]] J; cbn in J; repeat (destruct J as [<-|J]; [vm_compute; lia|]); destruct J.
Qed.
Lemma lines_shown : groups_shown lines_decls.
Proof. intros x p I. cbn in I. destruct I as [[= <- <-]|[I|[]]]; [reflexivity|discriminate]. Qed.
Lemma none_before (p s : bytes) : existsb (fun n => match after p (skipn n s) with Some _ => true | None => false end) (seq 0 (S (length s))) = false ->
  forall u v, s <> u ++ p ++ v.
Proof.
  intros H u v E. assert (Hx : existsb (fun n => match after p (skipn n s) with Some _ => true | None => false end) (seq 0 (S (length s))) = true); [|congruence].
  apply existsb_exists. exists (length u). split; [apply in_seq; subst s; rewrite app_length; lia|].
  subst s. rewrite skipn_app, skipn_all, Nat.sub_diag. cbn [app skipn].
  assert (A : forall p v, after p (p ++ v) = Some v) by (clear; induction p as [|c p IH]; intros v; [reflexivity|]; cbn; rewrite Ascii.eqb_refl; apply IH).
  rewrite A. reflexivity.
Qed.
