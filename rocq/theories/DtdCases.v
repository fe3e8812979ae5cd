(** DTDs and documents for the cases beside the theorems. *)
From Verif Require Import Prelude DtdModel DtdSpec DtdDocModel DtdDocSpec DtdDocProofs DtdDocProofs4.
Open Scope nat_scope.
Open Scope list_scope.

Definition nm (s : string) (t : times) : part := Leaf (s2b s) t.
Definition kid (s : string) : bytes := s2b s.
Definition nms (l : list string) : word := map s2b l.

(** ** soundness: [(a, b+, (c | (d, e?))* )] and its relatives *)
Definition cm_ok : part := Group Sequence TOne [nm "a" TOne; nm "b" TPlus; Group Choice TMany [nm "c" TOne; Group Sequence TOne [nm "d" TOne; nm "e" TOpt]]].
(** [(a*, b)], [(c, (a|b)+, d)], [(x | (a,b) | (c,d))], [((a,b) | a)] *)
Definition cm_star : part := Group Sequence TOne [nm "a" TMany; nm "b" TOne].
Definition cm_plus : part := Group Sequence TOne [nm "c" TOne; Group Choice TPlus [nm "a" TOne; nm "b" TOne]; nm "d" TOne].
Definition cm_alt : part := Group Choice TOne [nm "x" TOne; Group Sequence TOne [nm "a" TOne; nm "b" TOne]; Group Sequence TOne [nm "c" TOne; nm "d" TOne]].
Definition cm_start : part := Group Choice TOne [Group Sequence TOne [nm "a" TOne; nm "b" TOne]; nm "a" TOne].
Lemma star_in {L : words} {x : bytes} (w : word) : star L w -> (forall u, L u -> forall y : bytes, In y u -> y = x) -> forall y : bytes, In y w -> y = x.
Proof.
  intros S H. induction S as [|u v Hu Hv IH]; intros y Hy; [destruct Hy|]. apply in_app_iff in Hy. destruct Hy as [Hy|Hy]; [eapply H; eassumption|apply IH; exact Hy].
Qed.
Lemma not_star : ~ lang cm_star (nms ["a"%string]).
Proof.
  intros (u & v & E & _ & (u' & v' & E' & B & V)). cbn in B, V. subst u' v'. subst v. assert (H : In (s2b "b"%string) (nms ["a"%string])) by (rewrite E, in_app_iff; right; left; reflexivity).
  vm_compute in H. destruct H as [H|[]]. discriminate H.
Qed.
Lemma not_plus : ~ lang cm_plus (nms ["c"; "d"]%string).
Proof.
  intros (u & v & E & C & (u2 & v2 & E2 & (u3 & v3 & E3 & O & _) & (u4 & v4 & E4 & D4 & V))). cbn in C, D4, V. subst.
  cbn in E. injection E as E. destruct O as (L & [HL|[HL|[]]] & O); subst L; cbn in O; subst u3; discriminate E.
Qed.
Lemma not_alt : ~ lang cm_alt (nms ["a"; "c"; "d"]%string).
Proof.
  intros (L & [HL|[HL|[HL|[]]]] & H); subst L; cbn [lang map reps] in H.
  - discriminate H.
  - destruct H as (u & v & E & C & (u2 & v2 & E2 & D2 & V)). cbn in C, D2, V. subst. discriminate E.
  - destruct H as (u & v & E & C & (u2 & v2 & E2 & D2 & V)). cbn in C, D2, V. subst. discriminate E.
Qed.
Lemma not_start : ~ lang cm_start (nms ["a"; "x"]%string).
Proof.
  intros (L & [HL|[HL|[]]] & H); subst L; cbn [lang map reps] in H.
  - destruct H as (u & v & E & C & (u2 & v2 & E2 & D2 & V)). cbn in C, D2, V. subst. discriminate E.
  - discriminate H.
Qed.
(** a word of [cm_ok] *)
Lemma cm_ok_word : lang cm_ok (nms ["a"; "b"; "b"; "d"; "e"; "c"]%string).
Proof.
  exists (nms ["a"]%string), (nms ["b"; "b"; "d"; "e"; "c"]%string). split; [reflexivity|]. split; [reflexivity|].
  exists (nms ["b"; "b"]%string), (nms ["d"; "e"; "c"]%string). split; [reflexivity|]. split.
  - exists (nms ["b"]%string), (nms ["b"]%string). split; [reflexivity|]. split; [reflexivity|]. apply (star_app _ (nms ["b"]%string) []); [reflexivity|constructor].
  - exists (nms ["d"; "e"; "c"]%string), []. split; [reflexivity|]. split; [|reflexivity].
    apply (star_app _ (nms ["d"; "e"]%string) (nms ["c"]%string)).
    + eexists. split; [right; left; reflexivity|]. exists (nms ["d"]%string), (nms ["e"]%string). split; [reflexivity|]. split; [reflexivity|].
      exists (nms ["e"]%string), []. split; [reflexivity|]. split; [right; reflexivity|reflexivity].
    + apply (star_app _ (nms ["c"]%string) []); [|constructor]. eexists. split; [left; reflexivity|]. reflexivity.
Qed.
(** ** completeness: [((a,b)?, c)], [(a,b)?], [(a,b)+] at the root, [(a, (b?, c?))] *)
Definition cm_opt : part := Group Sequence TOne [Group Sequence TOpt [nm "a" TOne; nm "b" TOne]; nm "c" TOne].
Definition cm_opt_top : part := Group Sequence TOpt [nm "a" TOne; nm "b" TOne].
Definition cm_again : part := Group Sequence TPlus [nm "a" TOne; nm "b" TOne].
Definition cm_rest : part := Group Sequence TOne [nm "a" TOne; Group Sequence TOne [nm "b" TOpt; nm "c" TOpt]].
Lemma in_opt : lang cm_opt (nms ["c"]%string).
Proof. exists [], (nms ["c"]%string). split; [reflexivity|]. split; [left; reflexivity|]. exists (nms ["c"]%string), []. repeat split; reflexivity. Qed.
Lemma in_opt_top : lang cm_opt_top [].
Proof. left. reflexivity. Qed.
Lemma in_again : lang cm_again (nms ["a"; "b"; "a"; "b"]%string).
Proof.
  assert (X : in_order (map lang [nm "a" TOne; nm "b" TOne]) (nms ["a"; "b"]%string)).
  { exists (nms ["a"]%string), (nms ["b"]%string). split; [reflexivity|]. split; [reflexivity|]. exists (nms ["b"]%string), []. repeat split; reflexivity. }
  exists (nms ["a"; "b"]%string), (nms ["a"; "b"]%string). split; [reflexivity|]. split; [exact X|].
  apply (star_app _ (nms ["a"; "b"]%string) []); [exact X|constructor].
Qed.
Lemma in_rest : lang cm_rest (nms ["a"]%string).
Proof.
  exists (nms ["a"]%string), []. split; [reflexivity|]. split; [reflexivity|]. exists [], []. split; [reflexivity|]. split; [|reflexivity].
  exists [], []. split; [reflexivity|]. split; [left; reflexivity|]. exists [], []. split; [reflexivity|]. split; [left; reflexivity|reflexivity].
Qed.
(** ** validation without end: [(a?)*] on an empty element *)
Definition cm_loop : part := Group Sequence TMany [nm "a" TOpt].
Lemma many_stuck f (strict : bool) : (forall pos, f pos = Ok (true, pos)) -> forall fuel pos, many_loop fuel strict f pos = NoFuel.
Proof. intros H fuel. induction fuel as [|fuel IH]; intro pos; [reflexivity|]. cbn [many_loop]. rewrite H. cbn [bind]. apply IH. Qed.
Lemma cm_loops : forall fuel top, validate_children [] fuel cm_loop (compulsory_num cm_loop) top = NoFuel.
Proof.
  intros fuel top. unfold validate_children, cm_loop. cbn [compulsory_num times_eqb orb length Nat.ltb Nat.leb item_list_top]. unfold item_list_with. cbv beta zeta iota.
  rewrite many_stuck; [reflexivity|]. intro pos. cbn [is_sequence]. unfold validate_sequence. cbn [seq_items].
  destruct fuel as [|fuel]; cbn [leaf_loop nm]; destruct pos; cbn [nth_error exhausted times_eqb andb orb bind]; reflexivity.
Qed.

(** ** documents *)
(** <!ELEMENT r (h, item* )> <!ELEMENT h (#PCDATA)> <!ELEMENT item EMPTY>
    <!ATTLIST item id ID #REQUIRED ref IDREF #IMPLIED kind (x|y) #IMPLIED ver CDATA #FIXED "1"> *)
Definition cm_r : part := Group Sequence TOne [nm "h" TOne; nm "item" TMany].
Definition d_r : el_decl := ElDecl (s2b "r") TChildren (Some cm_r) 1.
Definition d_h : el_decl := ElDecl (s2b "h") TPcdata None 0.
Definition d_item : el_decl := ElDecl (s2b "item") TEmpty None 0.
Definition item_atts (dflt : at_default) : list at_decl :=
  [AtDecl (s2b "id") AId dflt None; AtDecl (s2b "ref") AIdref AImplied None; AtDecl (s2b "kind") (AEnum [s2b "x"; s2b "y"]) AImplied None;
   AtDecl (s2b "ver") ACdata AFixed (Some (s2b "1"))].
Definition dtd_of (dflt : at_default) : dtd := Dtd [d_h; d_item; d_r] [(s2b "item", item_atts dflt)] (Some d_r) true true.
Definition item_el (l : list (string * string)) : elem := Elem (s2b "item") (map (fun p => (s2b (fst p), s2b (snd p))) l) true [].
Definition h_el : elem := Elem (s2b "h") [] false [].
Definition doc_of (l : list elem) : elem := Elem (s2b "r") [] false (h_el :: l).
Definition doc_ok : elem := doc_of [item_el [("ver", "1"); ("id", "p"); ("kind", "y")]%string; item_el [("id", "q"); ("ref", "p"); ("ver", "1")]%string].
Lemma dtd_of_ok dflt : dtd_ok (dtd_of dflt).
Proof.
  constructor;
  [ vm_compute; repeat constructor; intro H; repeat (destruct H as [H|H]; [discriminate H|]); exact H
  | eexists; split; [reflexivity|cbn; tauto]
  | vm_compute; repeat constructor; intro H; repeat (destruct H as [H|H]; [discriminate H|]); exact H
  | intros n l H; repeat (destruct H as [H|H]; [injection H as <- <-; vm_compute; repeat constructor; intro H; repeat (destruct H as [H|H]; [discriminate H|]); exact H|]); destruct H
  | intros n l a b H Ha Hb Ta Tb; repeat (destruct H as [H|H]; [injection H as <- <-; cbn in Ha, Hb;
      repeat (destruct Ha as [Ha|Ha]; [subst a; try discriminate Ta; repeat (destruct Hb as [Hb|Hb]; [subst b; try discriminate Tb; reflexivity|]); destruct Hb|]); destruct Ha|]); destruct H
  | intros; reflexivity
  | intros; reflexivity ].
Qed.
Lemma dtd_of_no_any dflt : no_any (dtd_of dflt).
Proof. intros c H. repeat (destruct H as [H|H]; [subst c; discriminate|]). destruct H. Qed.
Lemma dtd_of_models dflt c : In c (d_elements (dtd_of dflt)) -> content_safe c /\ content_det c true /\ content_ends c.
Proof.
  intro H. repeat (destruct H as [H|H]; [subst c; (split; [|split]); intro T; try discriminate T; exists cm_r; repeat split; reflexivity|]). destruct H.
Qed.
Lemma nodup_tac_ok : atts_distinct (dtd_of ARequired) doc_ok.
Proof.
  intros e H. assert (X : elems (dtd_of ARequired) doc_ok = [doc_ok; h_el; item_el [("ver", "1"); ("id", "p"); ("kind", "y")]%string; item_el [("id", "q"); ("ref", "p"); ("ver", "1")]%string]) by (vm_compute; reflexivity). rewrite X in H.
  repeat (destruct H as [H|H]; [subst e; vm_compute; repeat constructor; intro H; repeat (destruct H as [H|H]; [discriminate H|]); exact H|]). destruct H.
Qed.
Lemma ok_ids_given : ids_given (dtd_of ARequired) doc_ok.
Proof.
  intros e l a H Hl Ha T. assert (X : elems (dtd_of ARequired) doc_ok = [doc_ok; h_el; item_el [("ver", "1"); ("id", "p"); ("kind", "y")]%string; item_el [("id", "q"); ("ref", "p"); ("ver", "1")]%string]) by (vm_compute; reflexivity).
  rewrite X in H. destruct Hl as [Hl|[]]. injection Hl as Hn <-. repeat (destruct Ha as [Ha|Ha]; [subst a; try discriminate T|]); [|destruct Ha].
  destruct H as [H|[H|[H|[H|[]]]]]; subst e; try (vm_compute in Hn; discriminate Hn).
  - exists (s2b "p"). right. left. reflexivity.
  - exists (s2b "q"). left. reflexivity.
Qed.
(** an ID that is implied and absent *)
Definition doc_no_id : elem := doc_of [item_el [("id", "d"); ("ver", "1")]%string; item_el [("ver", "1")]%string].
Lemma doc_no_id_valid : valid (dtd_of AImplied) doc_no_id.
Proof.
  assert (X : elems (dtd_of AImplied) doc_no_id = [doc_no_id; h_el; item_el [("id", "d"); ("ver", "1")]%string; item_el [("ver", "1")]%string]) by (vm_compute; reflexivity).
  constructor; rewrite X.
  - intros e H. pose proof (dtd_of_ok AImplied) as D.
    destruct H as [H|[H|[H|[H|[]]]]]; subst e; [exists d_r|exists d_h|exists d_item|exists d_item];
      (split; [split; [cbn; tauto|reflexivity]|]); (split; [|apply atts_check_sound; [exact D|vm_compute; reflexivity]]); cbn; try (split; reflexivity); try reflexivity.
    exists cm_r. split; [reflexivity|]. exists (nms ["h"]%string), (nms ["item"; "item"]%string). split; [reflexivity|]. split; [reflexivity|].
    exists (nms ["item"; "item"]%string), []. split; [reflexivity|]. split; [|reflexivity].
    apply (star_app _ (nms ["item"]%string) (nms ["item"]%string)); [reflexivity|]. apply (star_app _ (nms ["item"]%string) []); [reflexivity|constructor].
  - vm_compute. repeat constructor. intros [].
  - vm_compute. intros v [].
Qed.
(** a reference to nothing *)
Definition doc_dangling : elem := doc_of [item_el [("ref", "d"); ("ver", "1")]%string].
(** <!ELEMENT r (h, box)>, <!ELEMENT box ANY> *)
Definition cm_box : part := Group Sequence TOne [nm "h" TOne; nm "box" TOne].
Definition d_rb : el_decl := ElDecl (s2b "r") TChildren (Some cm_box) 2.
Definition d_box : el_decl := ElDecl (s2b "box") TAny None 0.
Definition dtd_box : dtd := Dtd [d_h; d_item; d_rb; d_box] [(s2b "item", item_atts ARequired)] (Some d_rb) true true.
Definition doc_box : elem := doc_of [Elem (s2b "box") [] false [item_el [("id", "p"); ("ver", "1")]%string; item_el [("id", "p"); ("other", "2")]%string]].
Lemma dtd_box_ok : dtd_ok dtd_box.
Proof.
  constructor;
  [ vm_compute; repeat constructor; intro H; repeat (destruct H as [H|H]; [discriminate H|]); exact H
  | eexists; split; [reflexivity|cbn; tauto]
  | vm_compute; repeat constructor; intro H; repeat (destruct H as [H|H]; [discriminate H|]); exact H
  | intros n l H; repeat (destruct H as [H|H]; [injection H as <- <-; vm_compute; repeat constructor; intro H; repeat (destruct H as [H|H]; [discriminate H|]); exact H|]); destruct H
  | intros n l a b H Ha Hb Ta Tb; repeat (destruct H as [H|H]; [injection H as <- <-; cbn in Ha, Hb;
      repeat (destruct Ha as [Ha|Ha]; [subst a; try discriminate Ta; repeat (destruct Hb as [Hb|Hb]; [subst b; try discriminate Tb; reflexivity|]); destruct Hb|]); destruct Ha|]); destruct H
  | intros; reflexivity
  | intros; reflexivity ].
Qed.
(** <!ELEMENT r ANY> *)
Definition d_any : el_decl := ElDecl (s2b "r") TAny None 0.
Definition dtd_any : dtd := Dtd [d_any] [] (Some d_any) false false.
Definition doc_any : elem := Elem (s2b "r") [] true [].
Lemma dtd_any_ok : dtd_ok dtd_any.
Proof.
  constructor; cbn.
  - repeat constructor. intros [].
  - eexists. split; [reflexivity|]. left. reflexivity.
  - constructor.
  - intros n l [].
  - intros n l a b [].
  - intros n l a [].
  - intros n l a [].
Qed.
Lemma any_loops fuel cfuel : validate fuel cfuel dtd_any doc_any = NoFuel.
Proof.
  unfold validate. cbn [d_top dtd_any]. assert (E : bytes_eqb (e_name doc_any) (el_name d_any) = true) by (vm_compute; reflexivity). rewrite E. cbn [d_any el_ty].
  generalize true at 1 as top. induction fuel as [|fuel IH]; intro top; [reflexivity|]. cbn [validate_loop].
  assert (A : forall s, attr_validate dtd_any doc_any s = Ok (Some s)) by (intro s; vm_compute; reflexivity). rewrite A. cbn [bind content_ok el_ty d_any negb is_any]. apply IH.
Qed.
(** ** the search for the root: [a] mentions itself; a tree of declarations *)
Definition r_self : el_decl := ElDecl (s2b "a") TChildren (Some (Group Sequence TOne [nm "a" TOpt])) 0.
Lemma self_loops fuel pfuel : new_root fuel (3 + pfuel) [r_self] = NoFuel.
Proof. apply root_stuck. vm_compute. reflexivity. Qed.
Definition r_tree : list el_decl :=
  [ElDecl (s2b "leaf") TPcdata None 0; ElDecl (s2b "mid") TChildren (Some (Group Sequence TOne [nm "leaf" TPlus])) 1;
   ElDecl (s2b "top") TChildren (Some (Group Sequence TOne [nm "leaf" TOpt; Group Choice TMany [nm "mid" TOne; nm "leaf" TOne]])) 0].
Definition r_rank (e : el_decl) : nat := if bytes_eqb (el_name e) (s2b "top") then 2 else if bytes_eqb (el_name e) (s2b "mid") then 1 else 0.
Lemma r_tree_acyclic : acyclic r_tree.
Proof.
  exists r_rank. intros e f He Hf (p & P1 & P2 & P3).
  repeat (destruct He as [He|He]; [subst e; cbn [el_list] in P1; try discriminate P1; injection P1 as <-;
    repeat (destruct Hf as [Hf|Hf]; [subst f; vm_compute in P3; vm_compute; repeat (destruct P3 as [P3|P3]; [try discriminate P3; repeat constructor|]); destruct P3|]); destruct Hf|]). destruct He.
Qed.
