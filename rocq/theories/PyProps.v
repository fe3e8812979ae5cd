(** C66: the objects of the Python bindings keep what they refer to, and release it once. *)
From Verif Require Import Prelude PyModel PySpec PyProofs7 PyCases.
Open Scope nat_scope.
Open Scope list_scope.

(** a program that parses documents, moves around in them, reads, and keeps and gives up references
    in any order: at every moment every object refers to something that is allocated, every node is
    released with some object, and in the end nothing is left *)
Theorem C66_reading : forall l, forallb reads l = true -> exists w, run l world0 = Ok w /\ sound w.
Proof. exact reading. Qed.
Print Assumptions C66_reading.
Example C66_reading_case : forallb reads reader = true /\
  exists w, run reader world0 = Ok w /\ w_held w = [8] /\ length (w_live w) = 4 /\ length (w_docs w) = 1.
Proof. exact (conj eq_refl reader_run). Qed.

(** a program that makes and changes documents, if it respects [proper].  Missing: this hypothesis,
    without which the statement is false, see below; replace, deattach and set_empty *)
Theorem C66_writing_partial : forall l, proper_all world0 l -> exists w, run l world0 = Ok w /\ sound w.
Proof. exact writing. Qed.
Print Assumptions C66_writing_partial.
Example C66_writing_case : proper_all world0 writer /\
  exists w, run (firstn 11 writer) world0 = Ok w /\ length (w_live w) = 3 /\ length (w_objs w) = 6.
Proof. exact (conj writer_ok writer_run). Qed.

(** a child whose object the program still has is released with the object of its parent *)
Theorem C66_child_refuted : exists l w o,
  forallb (fun c => match c with ANode | ASetChild _ _ | ADrop _ => true | _ => false end) l = true /\
  run l world0 = Ok w /\ In o (w_held w) /\ act (ARead o) w = UB.
Proof. exists kept_child. eexists. exists 3. vm_compute. split; [reflexivity|split; [reflexivity|split; [left; reflexivity|reflexivity]]]. Qed.
Print Assumptions C66_child_refuted.

(** a node that was made the root of a document is released with the object of the document *)
Theorem C66_root_refuted : exists l w o,
  forallb (fun c => match c with ADoc | ANode | ASetRoot _ _ | ADrop _ => true | _ => false end) l = true /\
  run l world0 = Ok w /\ In o (w_held w) /\ act (ARead o) w = UB.
Proof. exists kept_root. eexists. exists 3. vm_compute. split; [reflexivity|split; [reflexivity|split; [left; reflexivity|reflexivity]]]. Qed.
Print Assumptions C66_root_refuted.

(** a cursor over attributes does not keep the document *)
Theorem C66_cursor_refuted : exists l w o,
  forallb (fun c => match c with AParse _ | ARoot _ | ACursor _ | ADrop _ => true | _ => false end) l = true /\
  run l world0 = Ok w /\ In o (w_held w) /\ act (ARead o) w = UB.
Proof. exists kept_cursor. eexists. exists 4. vm_compute. split; [reflexivity|split; [reflexivity|split; [left; reflexivity|reflexivity]]]. Qed.
Print Assumptions C66_cursor_refuted.

(** the document that node.doc returns does not keep the document either *)
Theorem C66_doc_refuted : exists l w o,
  forallb (fun c => match c with AParse _ | ARoot _ | ADocOf _ | ADrop _ => true | _ => false end) l = true /\
  run l world0 = Ok w /\ In o (w_held w) /\ act (ARead o) w = UB.
Proof. exists kept_doc. eexists. exists 4. vm_compute. split; [reflexivity|split; [reflexivity|split; [left; reflexivity|reflexivity]]]. Qed.
Print Assumptions C66_doc_refuted.

(** a child below a child: giving up the references, the inner ones first, releases a node twice *)
Theorem C66_twice_refuted : exists l w o,
  forallb (fun c => match c with ANode | ASetChild _ _ | ADrop _ => true | _ => false end) l = true /\
  run l world0 = Ok w /\ w_held w = [o] /\ act (ADrop o) w = UB.
Proof. exists nested. eexists. exists 1. vm_compute. split; [reflexivity|split; [reflexivity|split; reflexivity]]. Qed.
Print Assumptions C66_twice_refuted.

(** a sibling beside a node without a parent *)
Theorem C66_after_refuted : exists w o c, run [ANode; ANode] world0 = Ok w /\ act (ASetAfter o c) w = UB.
Proof. eexists. exists 1, 3. vm_compute. split; reflexivity. Qed.
Print Assumptions C66_after_refuted.

(** a node that is removed without its memory is never released *)
Theorem C66_remove_refuted : exists l w,
  forallb (fun c => match c with AParse _ | ARoot _ | AGo _ _ | ARemove _ false | ADrop _ => true | _ => false end) l = true /\
  run l world0 = Ok w /\ w_objs w = [] /\ w_live w <> [].
Proof. exists removed. eexists. vm_compute. split; [reflexivity|split; [reflexivity|split; [reflexivity|discriminate]]]. Qed.
Print Assumptions C66_remove_refuted.

(** nor is the root a document had before it was given another one *)
Theorem C66_replaced_refuted : exists l w,
  forallb (fun c => match c with ADoc | ANode | ASetRoot _ _ | ADrop _ => true | _ => false end) l = true /\
  run l world0 = Ok w /\ w_objs w = [] /\ w_live w <> [].
Proof. exists replaced. eexists. vm_compute. split; [reflexivity|split; [reflexivity|split; [reflexivity|discriminate]]]. Qed.
Print Assumptions C66_replaced_refuted.
