(** Texts given in pieces are read as the text they make up. *)
From Verif Require Import Prelude StrModel StrSpec StrProofs StrProofs3 EscModel EscProofs2 AttrModel TreeModel ParseModel XmlSpec GramProofs3 SoundProofs NparseModel.
From Coq Require Import Lia.
Open Scope nat_scope.
Open Scope list_scope.

Lemma concat_opt_ok a s b t :
  match a with None => s = [] | Some x => holds x s end -> holds b t ->
  exists y, concat_opt a b = Ok y /\ holds y (s ++ t).
Proof.
  destruct a as [x|]; intros Hs Ht.
  - cbn [concat_opt]. rewrite (concat_ok _ _ _ _ Hs Ht). eexists. split; [reflexivity|]. destruct Hs as [Hs _]. destruct Ht as [Ht _].
    split; [apply nul_free_app; auto|]. exists []. reflexivity.
  - subst s. cbn [concat_opt app]. destruct Ht as [Ht [r ->]]. rewrite strdup_ok by exact Ht. eexists. split; [reflexivity|].
    split; [exact Ht|]. exists []. reflexivity.
Qed.
Lemma join_ok strings pieces : Forall2 holds strings pieces -> forall a s, match a with None => s = [] | Some x => holds x s end ->
  exists o, join_loop a strings = Ok o /\
    match o with None => a = None /\ strings = [] | Some y => holds y (s ++ concat pieces) end.
Proof.
  induction 1 as [|b t bs ts Hb F IH]; intros a s Ha; cbn [join_loop concat].
  - exists a. split; [reflexivity|]. destruct a; [rewrite app_nil_r; exact Ha|auto].
  - destruct (concat_opt_ok _ _ _ _ Ha Hb) as (y & -> & Hy). cbn [bind]. destruct (IH (Some y) _ Hy) as (o & -> & Ho). exists o.
    split; [reflexivity|]. destruct o; [rewrite app_assoc; exact Ho|destruct Ho; discriminate].
Qed.
Lemma parse_buffer_ok b s : holds b s -> parse_buffer b = doc_parse s.
Proof.
  intros [Hs [r ->]]. unfold parse_buffer. rewrite strlen_ok by exact Hs. cbn [bind].
  pose proof (mem_sub_app [] s (NUL :: r) 0 _ eq_refl eq_refl) as M. cbn [app] in M. rewrite M. reflexivity.
Qed.

Lemma doc_strings strings pieces : Forall2 holds strings pieces -> strings <> [] ->
  doc_parse_strings true strings = doc_parse (concat pieces).
Proof.
  intros F N. unfold doc_parse_strings. cbn [negb]. destruct (join_ok _ _ F None [] eq_refl) as (o & -> & Ho). cbn [bind].
  destruct o as [y|]; [|destruct Ho; contradiction]. apply parse_buffer_ok. exact Ho.
Qed.
Lemma node_strings strings pieces : Forall2 holds strings pieces -> strings <> [] ->
  node_parse_strings true strings = (d <- doc_parse (concat pieces) ;; Ok (root_of d)).
Proof.
  intros F N. unfold node_parse_strings. cbn [negb]. destruct (join_ok _ _ F None [] eq_refl) as (o & -> & Ho). cbn [bind].
  destruct o as [y|]; [|destruct Ho; contradiction]. rewrite (parse_buffer_ok _ _ Ho). reflexivity.
Qed.
Lemma node_text b s : holds b s -> node_parse b = (d <- doc_parse s ;; Ok (root_of d)).
Proof. intro H. unfold node_parse. rewrite (parse_buffer_ok _ _ H). reflexivity. Qed.
Lemma accepted_same text : (exists n, (d <- doc_parse text ;; Ok (root_of d)) = Ok (Some n)) <-> exists d, doc_parse text = Ok (Some d).
Proof.
  split.
  - intros (n & H). destruct (doc_parse text) as [[d|]| |]; try discriminate; eauto.
  - intros (d & H). rewrite H. destruct (parse_sound _ _ H) as (n & R & _). exists n. cbn [bind root_of]. rewrite R. reflexivity.
Qed.
Lemma text_same text encoding standalone pis x : doc_text text encoding standalone pis x ->
  exists n, (d <- doc_parse text ;; Ok (root_of d)) = Ok (Some n) /\ shows n x.
Proof. intro T. destruct (doc_text_ok _ _ _ _ _ T) as (d & n & -> & R & Sh & _). exists n. cbn [bind root_of]. rewrite R. auto. Qed.
