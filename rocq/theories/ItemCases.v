(** Concrete histories of tree edits. *)
From Verif Require Import Prelude ItemModel ItemSpec ItemExec.
Open Scope list_scope.

Lemma bind_inv {A B} (e : res A) (k : A -> res B) v : bind e k = Ok v -> exists a, e = Ok a /\ k a = Ok v.
Proof. destruct e; try discriminate. cbn. eauto. Qed.
Ltac steps H := repeat (let h := fresh "h" in let E := fresh "E" in apply bind_inv in H as (h & E & H)).

Lemma remove_first_text : exists ops s h, run_fam fam_new ops = Some s /\ run heap_new ops = Ok h /\ known s 0 = true /\ ~ items_shown h s 0.
Proof.
  set (ops := [ONode; OChild 0 (KContent, 7); OChild 0 (KContent, 8); OItemRemove 0 0]).
  assert (C : (h <- run heap_new ops ;; l <- childs h 0 ;; it <- rd_i h 0 ;; Ok (l, i_data it)) = Ok ([0], 7)) by (vm_compute; reflexivity).
  apply bind_inv in C as (h & E & C). apply bind_inv in C as (l & El & C). apply bind_inv in C as (it & Ei & C). injection C as -> Ed.
  eexists ops, _, h. split; [reflexivity|]. split; [exact E|]. split; [reflexivity|].
  intros (l & E1 & E2 & E3 & E4). rewrite El in E1. injection E1 as <-. destruct (E4 0 0 eq_refl) as (it' & Ei' & Ek & _).
  unfold rd_i in Ei. rewrite Ei' in Ei. injection Ei as <-. rewrite Ed in Ek. vm_compute in Ek. discriminate.
Qed.
Lemma replace_last_text : exists ops s h, run_fam fam_new ops = Some s /\ run heap_new ops = Ok h /\ known s 0 = true /\ ~ items_shown h s 0.
Proof.
  set (ops := [ONode; OChild 0 (KContent, 7); OChild 0 (KContent, 8); OItemReplace 0 1 (KContent, 9)]).
  assert (C : (h <- run heap_new ops ;; l <- childs h 0 ;; b <- childs_back h 0 ;; Ok (l, b)) = Ok ([0; 2], [1])) by (vm_compute; reflexivity).
  apply bind_inv in C as (h & E & C). apply bind_inv in C as (l & El & C). apply bind_inv in C as (b & Eb & C). injection C as -> ->.
  eexists ops, _, h. split; [reflexivity|]. split; [exact E|]. split; [reflexivity|].
  intros (l & E1 & E2 & _). rewrite El in E1. injection E1 as <-. rewrite Eb in E2. discriminate.
Qed.
Lemma stale_parent : exists ops s h n p, run_fam fam_new ops = Some s /\ fit fam_new ops = true /\ run heap_new ops = Ok h /\
  alone s n = true /\ node_get_parent h n = Ok (Some p).
Proof.
  set (ops := [ONode; ONode; OChild 0 (KNode, 1); ORemove 1]).
  assert (C : (h <- run heap_new ops ;; node_get_parent h 1) = Ok (Some 0)) by (vm_compute; reflexivity).
  apply bind_inv in C as (h & E & C). eexists ops, _, h, 1, 0. split; [reflexivity|]. split; [reflexivity|]. split; [exact E|]. split; [reflexivity|exact C].
Qed.
Lemma remove_twice : exists ops s h n h', run_fam fam_new ops = Some s /\ fit fam_new ops = true /\ run heap_new ops = Ok h /\
  alone s n = true /\ node_remove h n = Ok h' /\ f_kids s 0 <> [] /\ childs h' 0 = Ok [].
Proof.
  set (ops := [ONode; ONode; ONode; OChild 0 (KNode, 1); OChild 0 (KNode, 2); ORemove 1]).
  assert (C : (h <- run heap_new ops ;; h <- node_remove h 1 ;; childs h 0) = Ok []) by (vm_compute; reflexivity).
  apply bind_inv in C as (h & E & C). apply bind_inv in C as (h' & E' & C).
  eexists ops, _, h, 1, h'. split; [reflexivity|]. split; [reflexivity|]. split; [exact E|]. split; [reflexivity|]. split; [exact E'|]. split; [discriminate|exact C].
Qed.
