(** The two parsers do the same: the functions. *)
From Verif Require Import Prelude StrModel AttrModel TreeModel StreamModel ParseModel LinkModel LinkProofs.
Open Scope Z_scope.
Open Scope list_scope.

Definition both {A} (x : A * ldoc) (y : A * pdoc) : Prop := fst x = fst y /\ inv (snd x) (snd y).
Definition both3 {A B} (x : A * ldoc * B) (y : A * pdoc * B) : Prop := both (fst x) (fst y) /\ snd x = snd y.
Lemma osim {A B C} (P : B -> C -> Prop) (l' : A) e f g : e = Ok l' -> sim (opt P) (f l') g -> sim (opt P) (bind e f) g.
Proof. intros ->. auto. Qed.

Lemma pi_sim st l d : inv l d -> sim (opt both) (LinkModel.consume_pi st l) (ParseModel.consume_pi st d).
Proof.
  intros V. unfold LinkModel.consume_pi, ParseModel.consume_pi.
  apply sim_same. intros [st1 v] _. destruct (0 <? v); [|cbn; split; auto]. cbv zeta.
  apply sim_same. intros [st2 [[target m]|]] _; [|exact Logic.I].
  apply sim_same. intros x _. destruct x; [exact Logic.I|].
  destruct ((m =? 0) || (m =? 1))%bool.
  { destruct (inv_pi l d (Pi (cstr target) None) V) as (l' & -> & V'). cbn. split; auto. }
  destruct (m =? 2); [|exact Logic.I].
  apply sim_same. intros [st3 [[content ?]|]] _; [|exact Logic.I].
  destruct (inv_pi l d (Pi (cstr target) (Some (cstr content))) V) as (l' & -> & V'). cbn. split; auto.
Qed.

(** the stack is not changed by comments and instructions *)
Definition same_stack (l l' : ldoc) : Prop := l_stack l' = l_stack l.
Definition same_parse (d d' : pdoc) : Prop := map n_name (p_stack d') = map n_name (p_stack d) /\ p_root d' = p_root d.
Lemma same_parse_refl d : same_parse d d.
Proof. split; reflexivity. Qed.
Lemma same_parse_trans a b c : same_parse a b -> same_parse b c -> same_parse a c.
Proof. intros [A B] [C D]. split; congruence. Qed.
Lemma add_item_same d i : same_parse d (add_item d i).
Proof. unfold add_item. destruct (p_stack d) as [|[x a l] r] eqn:E; [apply same_parse_refl|]. split; cbn; rewrite ?E; reflexivity. Qed.
Lemma add_pi_same d p : same_parse d (add_pi d p).
Proof. unfold add_pi. destruct (p_stack d) eqn:E; [split; reflexivity|apply add_item_same]. Qed.
Lemma put_item_stack l p i l' : put_item l p i = Ok l' -> l_stack l' = l_stack l.
Proof. unfold put_item. destruct p as [p|]; [|intros E; injection E as <-; reflexivity]. destruct (ItemModel.item_set_child _ _ _ _); cbn; try discriminate. intros E. injection E as <-. reflexivity. Qed.
Lemma put_pi_stack l p l' : put_pi l p = Ok l' -> l_stack l' = l_stack l.
Proof. unfold put_pi. destruct (peek l); [apply put_item_stack|]. intros E. injection E as <-. reflexivity. Qed.

(** with the stacks *)
Definition still {A} (l : ldoc) (d : pdoc) (x : A * ldoc) (y : A * pdoc) : Prop := both x y /\ l_stack (snd x) = l_stack l /\ same_parse d (snd y).
Lemma pi_still st l d : inv l d -> sim (opt (still l d)) (LinkModel.consume_pi st l) (ParseModel.consume_pi st d).
Proof.
  intros V. unfold LinkModel.consume_pi, ParseModel.consume_pi.
  apply sim_same. intros [st1 v] _. destruct (0 <? v); [|cbn; repeat split; auto]. cbv zeta.
  apply sim_same. intros [st2 [[target m]|]] _; [|exact Logic.I].
  apply sim_same. intros x _. destruct x; [exact Logic.I|].
  destruct ((m =? 0) || (m =? 1))%bool.
  { destruct (inv_pi l d (Pi (cstr target) None) V) as (l' & E & V'). rewrite E. cbn. split; [split; auto|]. split; [apply (put_pi_stack _ _ _ E)|apply add_pi_same]. }
  destruct (m =? 2); [|exact Logic.I].
  apply sim_same. intros [st3 [[content ?]|]] _; [|exact Logic.I].
  destruct (inv_pi l d (Pi (cstr target) (Some (cstr content))) V) as (l' & E & V'). rewrite E. cbn. split; [split; auto|]. split; [apply (put_pi_stack _ _ _ E)|apply add_pi_same].
Qed.

Lemma comments_sim fuel : forall st l0 l d0 d, inv l d -> l_stack l = l_stack l0 -> same_parse d0 d ->
  sim (opt (still l0 d0)) (LinkModel.comments_loop fuel st (peek l0) l) (ParseModel.comments_loop fuel st d).
Proof.
  induction fuel as [|fuel IH]; intros st l0 l d0 d V Es Ds; [exact Logic.I|].
  cbn [LinkModel.comments_loop ParseModel.comments_loop].
  apply sim_same. intros st1 _. apply sim_same. intros [st2 v] _.
  apply sim_bindo with (Q := fun x y => still l0 d0 (fst x) (fst y) /\ snd x = snd y).
  { destruct (0 <? v); [|cbn; repeat split; auto; apply Ds].
    apply sim_same. intros [st3 [[content ?]|]] _; [|exact Logic.I].
    destruct (inv_put l d (IComment content)) as (l' & E & V'); [reflexivity|exact V|].
    assert (P : peek l0 = peek l) by (unfold peek; rewrite Es; reflexivity). rewrite P, E. cbn. split; [|reflexivity]. split; [split; auto|].
    split; [cbn; rewrite (put_item_stack _ _ _ _ E); exact Es|]. exact (same_parse_trans _ _ _ Ds (add_item_same d _)). }
  intros [[st3 l1] f] [[st3' d1] f'] (((E1 & V1) & S1 & D1) & E2). cbn in E1, V1, S1, D1, E2. subst st3' f'.
  apply sim_same. intros st4 _. destruct (inv_fields _ _ V1) as (_ & -> & _).
  apply sim_same. intros [st5 w] _.
  apply sim_bindo with (Q := fun x y => still l0 d0 (fst x) (fst y) /\ snd x = snd y).
  { destruct (0 <? w); [|cbn; repeat split; auto; apply D1].
    apply sim_bindo with (Q := still l1 d1); [apply pi_still; exact V1|].
    intros [st6 l2] [st6' d2] ((E & V2) & S2 & D2). cbn in *. split; [|reflexivity]. split; [split; auto|]. cbn. split; [congruence|]. exact (same_parse_trans _ _ _ D1 D2). }
  intros [[st6 l2] g] [[st6' d2] g'] (((E & V2) & S2 & D2) & E'). cbn in E, V2, S2, D2, E'. subst st6' g'.
  destruct g; [apply IH; assumption|]. apply sim_same. intros st7 _. cbn. split; [split; auto|auto].
Qed.
Lemma consume_sim st l d : inv l d -> sim (opt (still l d)) (LinkModel.consume_comments st l) (ParseModel.consume_comments st d).
Proof. intros V. apply comments_sim; [exact V|reflexivity|apply same_parse_refl]. Qed.

Lemma header_sim st l d : inv l d -> sim (opt (still l d)) (LinkModel.parse_xml_header st l) (ParseModel.parse_xml_header st d).
Proof.
  intros V. unfold LinkModel.parse_xml_header, ParseModel.parse_xml_header.
  apply sim_same. intros bom _. cbv zeta. apply sim_same. intros [st1 v] _.
  apply sim_bindo with (Q := still l d).
  { destruct (v =? 0); [cbn; repeat split; auto|].
    apply sim_same. intros [st2 v2] _. destruct (negb (0 <? v2)); [exact Logic.I|].
    apply sim_same. intros st3 _. apply sim_same. intros [st4 v4] _. destruct (v4 =? 0); [exact Logic.I|].
    apply sim_same. intros st5 _. apply sim_same. intros [st6 v6] _. destruct (v6 =? 0); [exact Logic.I|].
    apply sim_same. intros st7 _. apply sim_same. intros [st8 v8] _.
    apply sim_bindo with (Q := still l d).
    { destruct (0 <? v8); [|cbn; repeat split; auto]. apply sim_same. intros [st9 [[e ?]|]] _; [|exact Logic.I]. cbn. split; [split; [reflexivity|apply inv_encoding, V]|]. split; [reflexivity|]. split; reflexivity. }
    intros [st9 l1] [st9' d1] ((E & V1) & S1 & D1). cbn in E, V1, S1, D1. subst st9'.
    apply sim_same. intros st10 _. apply sim_same. intros [st11 v11] _.
    apply sim_bindo with (Q := still l d).
    { destruct (0 <? v11); [|cbn; repeat split; auto; apply D1]. apply sim_same. intros [st12 [[e ?]|]] _; [|exact Logic.I].
      apply sim_same. intros y _. cbn. split; [split; [reflexivity|apply inv_standalone, V1]|]. split; [exact S1|]. exact D1. }
    intros [st12 l2] [st12' d2] ((E & V2) & S2 & D2). cbn in E, V2, S2, D2. subst st12'.
    apply sim_same. intros st13 _. apply sim_same. intros [st14 v14] _. destruct (negb (0 <? v14)); [exact Logic.I|].
    generalize (consume_sim st14 l2 d2 V2). destruct (LinkModel.consume_comments st14 l2) as [[[a b]|]| |], (ParseModel.consume_comments st14 d2) as [[[a' b']|]| |]; cbn; auto.
    intros ((E & V3) & S3 & D3). split; [split; auto|]. cbn in *. split; [congruence|exact (same_parse_trans _ _ _ D2 D3)]. }
  intros [st2 l1] [st2' d1] ((E & V1) & S1 & D1). cbn in E, V1, S1, D1. subst st2'.
  assert (Ec : LinkModel.configure_encoding l1 = ParseModel.configure_encoding d1).
  { unfold LinkModel.configure_encoding, ParseModel.configure_encoding. destruct (inv_fields _ _ V1) as (_ & _ & -> & _). reflexivity. }
  rewrite Ec. apply sim_same. intros _ _. apply sim_same. intros [st3 v3] _. destruct (0 <? v3); [|cbn; repeat split; auto; apply D1].
  apply sim_same. intros [st4 o] _.
  generalize (consume_sim st4 l1 d1 V1). destruct (LinkModel.consume_comments st4 l1) as [[[a b]|]| |], (ParseModel.consume_comments st4 d1) as [[[a' b']|]| |]; cbn; auto.
  intros ((E & V3) & S3 & D3). split; [split; auto|]. cbn in *. split; [congruence|exact (same_parse_trans _ _ _ D1 D3)].
Qed.

(** the node on top has the attributes read so far *)
Definition topped (n : nat) (name : bytes) (vs : list node) (x : stream * ldoc * bool) (y : stream * pdoc * attrs * bool) : Prop :=
  let '(st, l, b) := x in let '(st', d, a, b') := y in
  st = st' /\ b = b' /\ inv l (with_stack d (Node name a [] :: vs)) /\ p_stack d = vs.
Lemma attrs_sim fuel : forall st l d n name a, inv l (with_stack d (Node name a [] :: p_stack d)) -> peek l = Some n ->
  sim (opt (topped n name (p_stack d))) (LinkModel.attrs_loop fuel st l n) (ParseModel.attrs_loop fuel st d a).
Proof.
  induction fuel as [|fuel IH]; intros st l d n name a V P; [exact Logic.I|].
  cbn [LinkModel.attrs_loop ParseModel.attrs_loop].
  apply sim_same. intros [st1 v1] _. destruct (0 <? v1); [cbn; auto|].
  apply sim_same. intros [st2 v2] _. destruct (0 <? v2); [cbn; auto|].
  apply sim_same. intros st3 _. apply sim_same. intros [st4 [[x ?]|]] _; [|exact Logic.I].
  cbv zeta. destruct (cstr x) as [|c cx] eqn:Ecx; [exact Logic.I|]. rewrite <- Ecx. clear c cx Ecx.
  apply sim_same. intros [st5 v5] _. apply sim_sameo. intros [st6 delim].
  apply sim_same. intros [st7 o] _.
  destruct (inv_attrs l _ n name a [] (p_stack d) a V eq_refl P) as (Ea & _). rewrite Ea. cbn [bind].
  apply sim_same. intros h _. destruct h; [exact Logic.I|].
  apply sim_same. intros [a' ?] _.
  destruct (inv_attrs l _ n name a [] (p_stack d) a' V eq_refl P) as (_ & V').
  assert (Ep : l_preserve (put_attrs l n a') = p_preserve d) by (destruct (inv_fields _ _ V') as (E & _); exact E).
  rewrite Ep. apply sim_same. intros [pl|] _; [|exact Logic.I].
  apply sim_same. intros st8 _.
  exact (IH st8 (lwith_preserve (put_attrs l n a') pl) (with_preserve d pl) n name a' (inv_preserve _ _ pl V') P).
Qed.

Definition rooted (d : pdoc) : Prop := p_stack d <> [] \/ p_root d <> None.
Lemma add_node_rooted d v : rooted (add_node d v).
Proof. unfold rooted, add_node, add_item. destruct (p_stack d) eqn:E; [right|left]; discriminate. Qed.
Lemma parse_node_sim st l d : inv l d -> p_stack d <> [] \/ p_root d = None ->
  sim (opt (fun x y => both3 x y /\ (snd x = false -> p_stack (snd (fst y)) <> []) /\ (p_stack d <> [] -> p_stack (snd (fst y)) <> []) /\ rooted (snd (fst y)))) (LinkModel.parse_node st l) (ParseModel.parse_node st d).
Proof.
  intros V Hr. unfold LinkModel.parse_node, ParseModel.parse_node.
  apply sim_bindo with (Q := still l d); [apply consume_sim, V|].
  intros [st1 l1] [st1' d1] ((E & V1) & _ & (D1 & D1')). cbn in E, V1, D1, D1'. subst st1'.
  assert (Hr1 : p_stack d1 <> [] \/ p_root d1 = None).
  { destruct Hr as [N|N]; [left|right; congruence]. intros Q. rewrite Q in D1. destruct (p_stack d); [contradiction|discriminate D1]. }
  assert (Hs : p_stack d <> [] -> p_stack d1 <> []) by (intros N Q; rewrite Q in D1; destruct (p_stack d); [contradiction|discriminate D1]).
  assert (Ha : forall v, p_stack d <> [] -> p_stack (add_node d1 v) <> []).
  { intros v N. unfold add_node, add_item. destruct (p_stack d1) eqn:E; [exfalso; exact (Hs N eq_refl)|]. cbn. discriminate. }
  apply sim_same. intros [st2 v2] _. apply sim_same. intros [st3 go] _. destruct (negb go); [exact Logic.I|].
  apply sim_same. intros [st4 [[x m]|]] _; [|exact Logic.I]. cbv zeta. destruct (cstr x) as [|c cx] eqn:Ecx; [exact Logic.I|]. rewrite <- Ecx.
  destruct (m =? 1).
  - destruct (inv_open l1 d1 (cstr x) V1 Hr1) as (l2 & n & -> & P & V2). cbn [bind].
    set (k := consume_spaces st4). destruct k as [st5| |]; cbn [bind bindo]; try exact Logic.I.
    generalize (attrs_sim (turns st5) st5 l2 d1 n (cstr x) no_attrs V2 P).
    destruct (LinkModel.attrs_loop (turns st5) st5 l2 n) as [[[[st6 l6] e6]|]| |], (ParseModel.attrs_loop (turns st5) st5 d1 no_attrs) as [[[[[st7 d7] a7] e7]|]| |]; cbn; try tauto.
    intros (-> & -> & V7 & S7). rewrite <- S7 in V7. destruct e7; cbn.
    + split; [split; [split; [reflexivity|apply inv_drop, V7]|reflexivity]|]. split; [discriminate|]. split; [|apply add_node_rooted]. { intros N. unfold add_node, add_item. destruct (p_stack d7) eqn:E7; [exfalso; apply (Hs N); symmetry; exact S7|]. discriminate. }
    + split; [split; [split; [reflexivity|exact V7]|reflexivity]|]. split; [discriminate|]. split; [discriminate|left; discriminate].
  - destruct (rd (cs (cstr x)) (Z.of_nat (length (cstr x)) - 1)) as [c'| |]; cbn [bind bindo]; try exact Logic.I.
    destruct (Ascii.eqb c' "/").
    + destruct (inv_open l1 d1 (removelast (cstr x)) V1 Hr1) as (l2 & n & -> & P & V2). cbn. split; [split; [split; [reflexivity|apply inv_drop, V2]|reflexivity]|]. split; [discriminate|]. split; [apply Ha|apply add_node_rooted].
    + destruct (inv_open l1 d1 (cstr x) V1 Hr1) as (l2 & n & -> & P & V2). cbn. split; [split; [split; [reflexivity|exact V2]|reflexivity]|]. split; [discriminate|]. split; [discriminate|left; discriminate].
Qed.

Lemma close_sim st l d : inv l d -> LinkModel.parse_close_node st l = ParseModel.parse_close_node st d.
Proof.
  intros V. unfold LinkModel.parse_close_node, ParseModel.parse_close_node.
  destruct (get_until_ref st true [s2b ">"]) as [[st1 [[text ?]|]]| |]; cbn [bind]; try reflexivity.
  destruct (rd (cs text) (Z.of_nat (length text) - 1)) as [c| |]; cbn [bind]; try reflexivity.
  destruct (p_stack d) as [|v vs] eqn:E.
  - unfold peek. rewrite (inv_bottom _ _ V E). reflexivity.
  - destruct (inv_top _ _ _ _ V E) as (n & -> & ->). reflexivity.
Qed.

Lemma content_sim fuel : forall st l d, inv l d -> p_stack d <> [] ->
  sim (opt (fun x y => both x y /\ rooted (snd y))) (LinkModel.content_loop fuel st l) (ParseModel.content_loop fuel st d).
Proof.
  induction fuel as [|fuel IH]; intros st l d V N; [exact Logic.I|].
  cbn [LinkModel.content_loop ParseModel.content_loop].
  apply sim_same. intros [st1 more] _. destruct (negb more); [cbn; repeat split; [exact V|left; exact N]|]. cbv zeta.
  destruct (inv_fields _ _ V) as (Ep & _ & _ & _ & _ & En). rewrite Ep.
  apply sim_same. intros st2 _. apply sim_same. intros [st3 v3] _. apply sim_same. intros [st4 v4] _.
  destruct ((0 <? v3) || (0 <? v4))%bool.
  { apply sim_bindo with (Q := still l d); [apply consume_sim, V|].
    intros [st5 l1] [st5' d1] ((E & V1) & _ & (D1 & _)). cbn in E, V1, D1. subst st5'. apply IH; [exact V1|]. intros Q. rewrite Q in D1. destruct (p_stack d); [contradiction|discriminate D1]. }
  apply sim_same. intros [st5 v5] _. destruct (0 <? v5).
  { rewrite (close_sim _ _ _ V). destruct (ParseModel.parse_close_node (stream_accept st5) d) as [[st6|]| |]; try exact Logic.I.
    destruct (p_stack d) as [|v vs] eqn:Es; [contradiction|].
    assert (V1 : inv (drop_node l) (add_node (with_stack d vs) v)).
    { apply inv_drop. cbn [with_stack p_stack]. destruct V as (ops & s & ch & G). exists ops, s, ch. destruct G. split; try assumption; [rewrite Es in g_spine; exact g_spine|]. unfold root_fits in *. rewrite Es in g_root. exact g_root. }
    set (d1 := add_node (with_stack d vs) v) in *.
    assert (V2 : inv (lwith_preserve (drop_node l) (tl (l_preserve (drop_node l)))) (with_preserve d1 (tl (p_preserve d1)))).
    { destruct (inv_fields _ _ V1) as (-> & _). apply inv_preserve, V1. }
    destruct vs as [|w ws].
    - assert (S1 : p_stack d1 = []) by reflexivity. assert (B := inv_bottom _ _ V1 S1).
      cbn [lwith_preserve l_stack]. rewrite B. cbn. split; [split; [reflexivity|exact V2]|]. right. discriminate.
    - assert (S1 : p_stack d1 <> []) by (destruct w; discriminate).
      assert (B : l_stack (drop_node l) <> []). { intros Q. destruct (p_stack d1) as [|u us] eqn:S2; [contradiction|]. destruct (inv_top _ _ _ _ V1 S2) as (n & P & _). unfold peek in P. rewrite Q in P. discriminate P. }
      cbn [lwith_preserve l_stack]. destruct (l_stack (drop_node l)); [contradiction|]. apply IH; [exact V2|exact S1]. }
  apply sim_same. intros [st6 v6] _. destruct (0 <? v6).
  { apply sim_same. intros [st7 [[text ?]|]] _; [|exact Logic.I].
    destruct (inv_put l d (ICdata (cstr text))) as (l' & E & V'); [reflexivity|exact V|]. rewrite En, E. cbn [bind]. apply IH; [exact V'|].
    unfold add_item. destruct (p_stack d) eqn:Q; [contradiction|discriminate]. }
  apply sim_same. intros [st7 v7] _. destruct (0 <? v7).
  { eapply sim_bindo; [apply parse_node_sim; [exact V|left; exact N]|].
    intros [[st8 l8] e8] [[st8' d8] e8'] ((B & _) & _ & N8 & _). cbn in *. destruct B as (E & V8). cbn in E, V8. subst st8'. apply IH; [exact V8|apply N8, N]. }
  apply sim_same. intros [st8 [[text ?]|]] _; [|exact Logic.I].
  destruct (inv_put l d (IContent (cstr text))) as (l' & E & V'); [reflexivity|exact V|]. rewrite En, E. cbn [bind]. apply IH; [exact V'|].
  unfold add_item. destruct (p_stack d) eqn:Q; [contradiction|discriminate].
Qed.

(** the finished document *)
Definition finished (l : ldoc) (d : doc) : Prop :=
  exists p, inv l p /\ p_stack p = [] /\ p_root p <> None /\ d = Doc (p_root p) (p_encoding p) (p_standalone p) (p_pis p).
Lemma common_sim st : sim (opt finished) (LinkModel.parse_common st) (ParseModel.parse_common st).
Proof.
  unfold LinkModel.parse_common, ParseModel.parse_common.
  generalize (header_sim st ldoc_new pdoc_new inv_new).
  destruct (LinkModel.parse_xml_header st ldoc_new) as [[[st1 l1]|]| |], (ParseModel.parse_xml_header st pdoc_new) as [[[st1' d1]|]| |]; try (cbn; tauto).
  intros ((E & V1) & _ & (_ & D1)). cbn [fst snd] in E, V1, D1. subst st1'. cbn [p_root pdoc_new] in D1. cbn [bind bindo].
  eapply sim_bindo; [apply (parse_node_sim st1 (lwith_header l1) (with_header d1)); [apply inv_header, V1|right; exact D1]|].
  intros [[st2 l2] e2] [[st2' d2] e2'] ((B & E2) & N2 & _ & R2). cbn [fst snd] in *. destruct B as (E & V2). cbn [fst snd] in E, V2. subst st2' e2'.
  apply sim_bindo with (Q := fun x y => both x y /\ rooted (snd y)).
  { destruct e2; [cbn; repeat split; auto|]. apply content_sim; [exact V2|apply N2; reflexivity]. }
  intros [st3 l3] [st3' d3] ((E & V3) & R3). cbn in E, V3, R3. subst st3'.
  destruct (p_stack d3) as [|v vs] eqn:S3.
  - rewrite (inv_bottom _ _ V3 S3). cbn. exists d3. destruct R3 as [R3|R3]; [contradiction|]. auto.
  - destruct (inv_top _ _ _ _ V3 S3) as (n & P & _). unfold peek in P. destruct (l_stack l3); [discriminate P|]. exact Logic.I.
Qed.
Lemma parse_sim content : sim (opt finished) (LinkModel.doc_parse content) (ParseModel.doc_parse content).
Proof. apply common_sim. Qed.
Lemma parse_file_sim content : sim (opt finished) (LinkModel.doc_parse_file content) (ParseModel.doc_parse_file content).
Proof. unfold LinkModel.doc_parse_file, ParseModel.doc_parse_file. apply sim_same. intros st _. apply common_sim. Qed.
