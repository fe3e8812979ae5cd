(** Concrete validations, for VerrProps. *)
From Verif Require Import Prelude DtdModel DtdSpec DtdProofs DtdDocModel DtdDocSpec DtdDocProofs DtdCases VerrModel VerrSpec.
Open Scope nat_scope.
Open Scope list_scope.

Lemma dtd_speaks_of dflt : dtd_speaks (dtd_of dflt).
Proof. intros c H T. repeat (destruct H as [H|H]; [subst c; try discriminate T; eexists; split; reflexivity|]). destruct H. Qed.
Lemma root_speaks_of dflt l : root_speaks (dtd_of dflt) (doc_of l).
Proof. intros c [H N] T. repeat (destruct H as [H|H]; [subst c; try discriminate T; discriminate N|]). destruct H. Qed.

(** an element r over a, b, c and d, all of them EMPTY *)
Definition leaf (s : string) : elem := Elem (s2b s) [] true [].
Definition d_cm (p : part) : el_decl := ElDecl (s2b "r") TChildren (Some p) (compulsory_num p).
Definition dtd_cm (p : part) : dtd := Dtd (map (fun s => ElDecl (s2b s) TEmpty None 0) ["a"; "b"; "c"; "d"]%string ++ [d_cm p]) [] (Some (d_cm p)) false false.
Definition doc_cm (l : list string) : elem := Elem (s2b "r") [] false (map leaf l).
Lemma dtd_cm_ok p : dtd_ok (dtd_cm p).
Proof.
  constructor;
  [ vm_compute; repeat constructor; intro H; repeat (destruct H as [H|H]; [discriminate H|]); exact H
  | eexists; split; [reflexivity|cbn; tauto]
  | constructor
  | intros n l []
  | intros n l a b []
  | intros n l a []
  | intros n l a [] ].
Qed.
Lemma doc_cm_distinct p l : atts_distinct (dtd_cm p) (doc_cm l).
Proof.
  intros e H. assert (X : e_atts e = []); [|rewrite X; constructor].
  assert (L : forall x, e_atts x = [] -> e_subs x = [] -> forall y, In y (elems (dtd_cm p) x) -> e_atts y = []).
  { intros [n a em sb]. cbn [e_atts e_subs]. intros -> -> y Hy. cbn [elems] in Hy. destruct (any_declared _ _) in Hy; cbn in Hy; destruct Hy as [<-|[]]; reflexivity. }
  cbn [elems doc_cm] in H. destruct (any_declared _ _) in H; cbn [In] in H; (destruct H as [<-|H]; [reflexivity|]); [destruct H|].
  apply in_flat_map in H. destruct H as (x & Hx & He). apply in_map_iff in Hx. destruct Hx as (s & <- & _). exact (L (leaf s) eq_refl eq_refl e He).
Qed.
Definition cm_ab_opt : part := Group Sequence TOpt [nm "a" TOne; nm "b" TOne].
Definition cm_ab_cd : part := Group Choice TOne [Group Sequence TOne [nm "a" TOne; nm "b" TOne]; Group Sequence TOne [nm "c" TOne; nm "d" TOne]].
Definition cm_a_b : part := Group Choice TPlus [nm "a" TOne; nm "b" TOne].
(** a root declared EMPTY *)
Definition d_empty : el_decl := ElDecl (s2b "r") TEmpty None 0.
Definition dtd_empty : dtd := Dtd [d_empty] [] (Some d_empty) false false.
Lemma dtd_empty_ok : dtd_ok dtd_empty.
Proof.
  constructor; [repeat constructor; intros []|eexists; split; [reflexivity|left; reflexivity]|constructor|intros n l []|intros n l a b []|intros n l a []|intros n l a []].
Qed.
(** a root declared ANY that has an identifier *)
Definition dtd_anyid : dtd := Dtd [d_any] [(s2b "r", [AtDecl (s2b "id") AId AImplied None])] (Some d_any) true false.
Definition doc_anyid : elem := Elem (s2b "r") [(s2b "id", s2b "p")] true [].
Lemma dtd_anyid_ok : dtd_ok dtd_anyid.
Proof.
  constructor; [repeat constructor; intros []|eexists; split; [reflexivity|left; reflexivity]|repeat constructor; intros []| | | |].
  - intros n l [H|[]]. injection H as _ <-. repeat constructor. intros [].
  - intros n l a b [H|[]] Ha Hb _ _. injection H as _ <-. destruct Ha as [<-|[]], Hb as [<-|[]]. reflexivity.
  - intros n l a [H|[]] Ha Ta. reflexivity.
  - intros n l a [H|[]] Ha Ta. injection H as _ <-. destruct Ha as [<-|[]]. discriminate Ta.
Qed.
Lemma anyid_ids : elems dtd_anyid doc_anyid = [doc_anyid] /\ flat_map (ids dtd_anyid) (elems dtd_anyid doc_anyid) = [s2b "p"].
Proof. split; vm_compute; reflexivity. Qed.
