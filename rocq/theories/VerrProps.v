(** C62: what a validation reports. *)
From Verif Require Import Prelude DtdModel DtdSpec DtdProofs DtdDocModel DtdDocSpec DtdDocProofs DtdCases VerrModel VerrSpec VerrProofs3 VerrCases.
Open Scope nat_scope.
Open Scope list_scope.

(** The verdict does not depend on whether an error is asked for: it is that of C34 to C36. *)
Theorem C62_agrees : forall fuel cfuel d root wanted,
  match validate fuel cfuel d root with
  | Ok b => exists st, v_validate fuel cfuel d root wanted = Ok (b, st)
  | UB => v_validate fuel cfuel d root wanted = UB
  | NoFuel => v_validate fuel cfuel d root wanted = NoFuel
  end.
Proof. exact v_agrees. Qed.
Print Assumptions C62_agrees.
(** Whatever the verdict: the stack, the table of identifiers, the list of references and the
    texts of the messages have been released. *)
Theorem C62_released : forall fuel cfuel d root wanted b st, v_validate fuel cfuel d root wanted = Ok (b, st) -> v_mem st = [].
Proof. exact v_released. Qed.
Print Assumptions C62_released.
(** A caller that does not ask for an error gets none; at most one that nobody can release is
    made.  Missing: none at all (refuted below). *)
Theorem C62_unwanted_partial : forall fuel cfuel d root b st, v_validate fuel cfuel d root false = Ok (b, st) ->
  v_cell st = None /\ (v_errs st = [] \/ exists e, v_errs st = [e] /\ unasked e).
Proof. exact v_unwanted. Qed.
Print Assumptions C62_unwanted_partial.
(** What every error says is so.  Missing: documents whose last element visited is declared
    ANY (refuted below). *)
Theorem C62_true_partial : forall fuel cfuel d root b st, dtd_ok d -> atts_distinct d root -> ends_plain d root = true ->
  (forall x, In x (elems d root) -> length (e_subs x) < cfuel) -> v_validate fuel cfuel d root true = Ok (b, st) ->
  Forall (true_of d root) (v_errs st) /\ (forall e, v_cell st = Some e -> true_of d root e).
Proof. exact v_true. Qed.
Print Assumptions C62_true_partial.
(** No error for a document that is accepted, and exactly one for a document that is not: the
    one the caller gets is the only one made.  Missing: the content models of [speaks] and the
    empty root (all refuted below). *)
Theorem C62_report_partial : forall fuel cfuel d root b st, dtd_ok d -> atts_distinct d root -> ends_plain d root = true ->
  (forall x, In x (elems d root) -> length (e_subs x) < cfuel) -> dtd_speaks d -> root_speaks d root -> v_validate fuel cfuel d root true = Ok (b, st) ->
  if b then v_cell st = None /\ v_errs st = []
  else exists e, v_cell st = Some e /\ v_errs st = [e] /\ true_of d root e /\ blamed d root e.
Proof. exact v_report. Qed.
Print Assumptions C62_report_partial.
Definition doc_twice : elem := doc_of [item_el [("id", "p"); ("ver", "1")]%string; item_el [("id", "p"); ("ver", "1")]%string].
Example C62_report_case : dtd_ok (dtd_of ARequired) /\ ends_plain (dtd_of ARequired) doc_ok = true /\ atts_distinct (dtd_of ARequired) doc_ok /\ dtd_speaks (dtd_of ARequired) /\
  root_speaks (dtd_of ARequired) doc_ok /\ v_validate 20 20 (dtd_of ARequired) doc_ok true = Ok (true, Vst true None [] []).
Proof. split; [apply dtd_of_ok|]. split; [reflexivity|]. split; [apply nodup_tac_ok|]. split; [apply dtd_speaks_of|]. split; [apply root_speaks_of|]. vm_compute. reflexivity. Qed.
Example C62_twice_case : exists e, e = EIdTwice (s2b "id") (s2b "item") /\ v_validate 20 20 (dtd_of ARequired) doc_twice true = Ok (false, Vst true (Some e) [e] []).
Proof. eexists. split; [reflexivity|]. vm_compute. reflexivity. Qed.
Definition cm_abs : part := Group Sequence TOne [nm "a" TOne; nm "b" TMany].
Example C62_content_case : dtd_ok (dtd_cm cm_abs) /\ atts_distinct (dtd_cm cm_abs) (doc_cm ["a"; "b"; "c"]%string) /\ speaks cm_abs = true /\ content_det (d_cm cm_abs) true /\
  v_validate 20 20 (dtd_cm cm_abs) (doc_cm ["a"; "b"; "c"]%string) true = Ok (false, Vst true (Some EMoreChilds) [EMoreChilds] []).
Proof. split; [apply dtd_cm_ok|]. split; [apply doc_cm_distinct|]. split; [reflexivity|]. split; [intros _; exists cm_abs; repeat split; reflexivity|]. vm_compute. reflexivity. Qed.

(** ** Refuted *)
(** Rejected, and nothing says why: <!ELEMENT r (a, b)?> and <r><c/></r>. *)
Theorem C62_silent_refuted : exists d root st, dtd_ok d /\ atts_distinct d root /\ v_validate 20 20 d root true = Ok (false, st) /\ v_cell st = None.
Proof. exists (dtd_cm cm_ab_opt), (doc_cm ["c"]%string). eexists. split; [apply dtd_cm_ok|]. split; [apply doc_cm_distinct|]. split; vm_compute; reflexivity. Qed.
Print Assumptions C62_silent_refuted.
(** The same for a root that is declared EMPTY and has content: <!ELEMENT r EMPTY> and
    <r>..</r>. *)
Theorem C62_root_refuted : exists d root st, dtd_ok d /\ dtd_speaks d /\ v_validate 20 20 d root true = Ok (false, st) /\ v_cell st = None.
Proof. exists dtd_empty, (Elem (s2b "r") [] false []). eexists. split; [apply dtd_empty_ok|]. split; [intros c [<-|[]] T; discriminate T|]. split; vm_compute; reflexivity. Qed.
Print Assumptions C62_root_refuted.
(** Accepted, and an error is set: <!ELEMENT r ((a, b) | (c, d))> and <r><c/><d/></r>. *)
Theorem C62_accepted_refuted : exists d root st e, dtd_ok d /\ atts_distinct d root /\ v_validate 20 20 d root true = Ok (true, st) /\ v_cell st = Some e.
Proof. exists (dtd_cm cm_ab_cd), (doc_cm ["c"; "d"]%string). do 2 eexists. split; [apply dtd_cm_ok|]. split; [apply doc_cm_distinct|]. split; vm_compute; reflexivity. Qed.
Print Assumptions C62_accepted_refuted.
(** Two errors are made and the first is lost: <!ELEMENT r (a | b)+> and <r><c/></r>. *)
Theorem C62_lost_refuted : exists d root st e1 e2, dtd_ok d /\ atts_distinct d root /\ v_validate 20 20 d root true = Ok (false, st) /\ v_cell st = Some e2 /\ v_errs st = [e2; e1].
Proof. exists (dtd_cm cm_a_b), (doc_cm ["c"]%string). do 3 eexists. split; [apply dtd_cm_ok|]. split; [apply doc_cm_distinct|]. split; [|split]; vm_compute; reflexivity. Qed.
Print Assumptions C62_lost_refuted.
(** An error nobody asked for is made and lost: an attribute that is not declared. *)
Theorem C62_unwanted_refuted : exists d root st e, dtd_ok d /\ dtd_speaks d /\ v_validate 20 20 d root false = Ok (false, st) /\ v_cell st = None /\ v_errs st = [e].
Proof.
  exists (dtd_of ARequired), (doc_of [item_el [("id", "p"); ("ver", "1"); ("other", "1")]%string]). do 2 eexists. split; [apply dtd_of_ok|]. split; [apply dtd_speaks_of|].
  split; [|split]; vm_compute; reflexivity.
Qed.
Print Assumptions C62_unwanted_refuted.
(** The only identifier of the document is said to be used before: the root is declared ANY. *)
Theorem C62_true_refuted : exists d root st e, dtd_ok d /\ v_validate 20 20 d root true = Ok (false, st) /\ v_cell st = Some e /\ ~ true_of d root e.
Proof.
  exists dtd_anyid, doc_anyid. do 2 eexists. split; [apply dtd_anyid_ok|]. split; [vm_compute; reflexivity|]. split; [reflexivity|]. intros [_ H]. apply H.
  - intros e l a He Hl Ha _. destruct anyid_ids as [X _]. rewrite X in He. destruct He as [<-|[]]. destruct Hl as [Hl|[]]. injection Hl as <-. destruct Ha as [<-|[]]. exists (s2b "p"). left. reflexivity.
  - destruct anyid_ids as [_ X]. rewrite X. repeat constructor. intros [].
Qed.
Print Assumptions C62_true_refuted.
(** The message about a root that is not declared is made with a NULL string. *)
Theorem C62_null_refuted : exists d root st n, dtd_ok d /\ v_validate 20 20 d root true = Ok (false, st) /\ v_cell st = Some (ERoot n None).
Proof. exists dtd_empty, (leaf "x"). do 2 eexists. split; [apply dtd_empty_ok|]. split; vm_compute; reflexivity. Qed.
Print Assumptions C62_null_refuted.
