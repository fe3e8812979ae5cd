(** C65: nodes made from text. *)
From Verif Require Import Prelude HashModel OwnModel OwnExec OwnSpec OwnCases KeepModel KeepSpec KeepProofs3 KeepCases.
From Verif Require StrModel StrSpec XmlSpec ValidCases ParseModel TreeModel NparseModel NparseProofs.
From Coq Require Import Permutation.
Open Scope nat_scope.
Open Scope list_scope.

(** A node read from a text in any number of pieces is the element of that text: it is made
    if and only if the text, joined, is a document that the parser takes, ... *)
Theorem C65_pieces :
  forall strings pieces, Forall2 StrSpec.holds strings pieces -> strings <> [] ->
  NparseModel.doc_parse_strings true strings = ParseModel.doc_parse (concat pieces) /\
  ((exists n, NparseModel.node_parse_strings true strings = Ok (Some n)) <->
   exists d, ParseModel.doc_parse (concat pieces) = Ok (Some d)).
Proof.
  intros strings pieces F N. split; [exact (NparseProofs.doc_strings _ _ F N)|].
  rewrite (NparseProofs.node_strings _ _ F N). exact (NparseProofs.accepted_same _).
Qed.
Print Assumptions C65_pieces.

(** ... and has the name, the attributes and the content that the text says; the same holds of
    axl_node_parse. *)
Theorem C65_content :
  forall text encoding standalone pis x, XmlSpec.doc_text text encoding standalone pis x ->
  (forall strings pieces, Forall2 StrSpec.holds strings pieces -> strings <> [] -> concat pieces = text ->
     exists n, NparseModel.node_parse_strings true strings = Ok (Some n) /\ XmlSpec.shows n x) /\
  (forall b, StrSpec.holds b text -> exists n, NparseModel.node_parse b = Ok (Some n) /\ XmlSpec.shows n x).
Proof.
  intros text e sa l x T. split.
  - intros strings pieces F N E. rewrite (NparseProofs.node_strings _ _ F N), E. exact (NparseProofs.text_same _ _ _ _ _ T).
  - intros b H. rewrite (NparseProofs.node_text _ _ H). exact (NparseProofs.text_same _ _ _ _ _ T).
Qed.
Print Assumptions C65_content.

Example C65_text_case : exists strings pieces,
  Forall2 StrSpec.holds strings pieces /\ length strings = 3 /\ concat pieces = ValidCases.text_of ValidCases.x_good /\
  XmlSpec.doc_text (ValidCases.text_of ValidCases.x_good) None false [] ValidCases.x_good.
Proof.
  exists (map StrModel.cs [firstn 9 (ValidCases.text_of ValidCases.x_good); []; skipn 9 (ValidCases.text_of ValidCases.x_good)]), [firstn 9 (ValidCases.text_of ValidCases.x_good); []; skipn 9 (ValidCases.text_of ValidCases.x_good)].
  split; [|split; [reflexivity|split; [vm_compute; reflexivity|exact ValidCases.good_text]]].
  constructor; [|constructor; [|constructor; [|constructor]]]; (split; [|exists []; reflexivity]); intro H; vm_compute in H; intuition discriminate.
Qed.

(** The error reference is documented as optional; without it nothing is read. *)
Theorem C65_error_refuted :
  exists strings pieces, Forall2 StrSpec.holds strings pieces /\
  (exists n, NparseModel.node_parse_strings true strings = Ok (Some n)) /\
  NparseModel.node_parse_strings false strings = Ok None /\ NparseModel.doc_parse_strings false strings = Ok None.
Proof.
  exists [s2b "<a>" ++ [NUL]; s2b "</a>" ++ [NUL]], [s2b "<a>"; s2b "</a>"]. split.
  - constructor; [|constructor; [|constructor]]; (split; [|exists []; reflexivity]); intro H; vm_compute in H; intuition discriminate.
  - split; [eexists; vm_compute; reflexivity|split; reflexivity].
Qed.
Print Assumptions C65_error_refuted.

(** Whatever a program does with such nodes and others, among the calls of OwnExec: no call
    touches released memory, what is allocated from the system is what the trees in hand own, no
    document is kept twice, and a document is kept as long as the node that was read into it
    exists, is not released before, and has no other root -- provided that no node or holder that
    belongs to the document is outside that node when the node is released. *)
Theorem C65_owned_partial :
  forall esc calls, klegal_all esc kst0 calls ->
  exists s, kexec_all esc kst0 calls = Ok s /\
    NoDup (m_live (s_mem (k_st s))) /\ Permutation (m_live (s_mem (k_st s))) (in_hand (k_st s)) /\
    NoDup (map snd (k_keep s)) /\
    forall a d, In (a, d) (k_keep s) ->
      In a (all_ids (s_roots (k_st s))) /\ ~ In d (m_dead (s_mem (k_st s))) /\
      forall n, ~ In (n, Some d) (s_roots (k_st s)).
Proof. exact kowned. Qed.
Print Assumptions C65_owned_partial.

(** Once all trees were released, nothing is left: no memory, and none of the documents kept. *)
Theorem C65_released_partial :
  forall esc calls1 calls2 s1 s2, klegal_all esc kst0 (calls1 ++ calls2) ->
  kexec_all esc kst0 calls1 = Ok s1 -> kexec_all esc s1 calls2 = Ok s2 -> s_roots (k_st s2) = [] ->
  m_live (s_mem (k_st s2)) = [] /\ k_keep s2 = [] /\
  forall a d, In (a, d) (k_keep s1) -> In d (m_dead (s_mem (k_st s2))).
Proof. exact kreleased. Qed.
Print Assumptions C65_released_partial.

(** Without the condition it is false: a child taken out of a node read from a text dies with
    that node, ... *)
Theorem C65_child_refuted : exists calls, kexec_all idesc kst0 calls = UB /\
  calls = [KCall (CParsed 0 (s2b "a")); KCall (CSetRoot 0 0); KCall (CParsed 0 (s2b "b")); KCall (CSetChild (0, []) 1); KParsed 0;
           KCall (CRemove (0, []) 0 false); KCall (CFree 0); KCall (CFree 0)].
Proof. eexists. split; [exact child_ub|reflexivity]. Qed.
Print Assumptions C65_child_refuted.
(** ... and so does the holder of a node made by the program that was put into it for a while. *)
Theorem C65_lent_refuted : exists calls, kexec_all idesc kst0 calls = UB /\
  calls = [KCall (CParsed 0 (s2b "a")); KCall (CSetRoot 0 0); KParsed 0; KCall (CCreate (s2b "b")); KCall (CSetChild (0, []) 1);
           KCall (CRemove (0, []) 0 false); KCall (CFree 0); KCall (CFree 0)].
Proof. eexists. split; [exact lent_ub|reflexivity]. Qed.
Print Assumptions C65_lent_refuted.

(** Three nodes read from texts, changed, put into a document, copied, taken out; then all is released. *)
Example C65_case : klegal_all idesc kst0 (klife ++ kend) /\
  (exists s, kexec_all idesc kst0 klife = Ok s /\ length (m_live (s_mem (k_st s))) = 22 /\ length (s_roots (k_st s)) = 2 /\
     map snd (k_keep s) = [3; 0] /\ m_dead (s_mem (k_st s)) = [2]) /\
  (exists s, kexec_all idesc kst0 (klife ++ kend) = Ok s /\ s_roots (k_st s) = []).
Proof. split; [exact klife_legal|exact klife_runs]. Qed.
