(** Every document the parser makes is made of regular trees. *)
From Coq Require Import Permutation.
From Verif Require Import Prelude StrSpec StrProofs EscProofs StrProofs2 HashSpec AttrModel AttrSpec AttrProofs TreeModel StreamProofs ParseModel XmlSpec ParseProofs ParseProofs2 GramProofs GramProofs2 GramProofs4 GramProofs5 SoundSpec SoundProofs SoundProofs2 EqModel EqSpec EqProofs EqProofs2 EqProofs3.
Open Scope list_scope.
Open Scope Z_scope.

Lemma attrs_made : forall f s d a r d' a' e, closed_quotes s -> made a -> a_attrs f s d a = Some (r, d', a', e) -> made a'.
Proof.
  induction f as [|f IH]; intros s d a r d' a' e Cq M H; [discriminate|]. cbn [a_attrs] in H.
  destruct (after (s2b "/>") s) as [s1|] eqn:A1; [injection H as <- <- <- <-; exact M|].
  destruct (after (s2b ">") s) as [s1|] eqn:A2; [injection H as <- <- <- <-; exact M|].
  clear A1 A2. destruct (skip_blank_split s) as (w & Bw & Ew).
  destruct (until [s2b "="] (skip s)) as [[[[k it] x] s1]|] eqn:U; [|discriminate].
  destruct (until_char_inv "=" _ _ _ _ _ eq_refl U) as (E1 & _ & N1).
  assert (Nk : nul_free (cstr k)) by apply cstr_nul_free.
  destruct (cstr k) as [|k0 kr] eqn:Ek; [discriminate|].
  destruct (a_quote s1) as [[q s2]|] eqn:Q; [|discriminate]. destruct (a_quote_inv _ _ _ Q) as [Hq E2].
  assert (Cs : has q s2 = true /\ closed_quotes s2).
  { split; [apply (Cq (w ++ k) q s2); [rewrite Ew, E1, E2, <- app_assoc; reflexivity|exact Hq]|].
    apply (closed_quotes_suffix (w ++ k ++ ["="%char; q])). replace ((w ++ k ++ ["="%char; q]) ++ s2) with s; [exact Cq|]. rewrite Ew, E1, E2, <- !app_assoc. reflexivity. }
  destruct Cs as [Hh Cs]. destruct (a_value q s2) as [v s3] eqn:V. unfold a_value in V.
  destruct (until [[q]] s2) as [[[[v0 it0] x0] s4]|] eqn:Uv.
  2:{ apply until_none in Uv; [congruence|apply quote_ws, Hq]. }
  injection V as <- <-. destruct (until_char_inv q _ _ _ _ _ (quote_ws q Hq) Uv) as (E4 & _ & _).
  destruct (a_has a (k0 :: kr)) eqn:Ha; [discriminate|]. destruct (a_preserve _ _ _) as [pl|]; [|discriminate].
  destruct (skip_blank_split s4) as (w3 & Bw3 & Ew3).
  destruct (made_arep a M) as (m & R & _).
  destruct (a_set_ok a m (k0 :: kr) (Some (cstr v0)) R Nk) as (bb & Eb & _).
  eapply (IH (skip s4)); [| |exact H].
  - apply (closed_quotes_suffix (v0 ++ q :: w3)). rewrite <- app_assoc. cbn [app]. rewrite <- Ew3, <- E4. exact Cs.
  - eapply made_core; [exact M|exact Nk|apply (cstr_nul_free v0)|exact Eb].
Qed.
Lemma tag_made s d r d' a name e : closed_quotes s -> a_tag s d = Some (r, d', a, name, e) -> made a.
Proof.
  intros Cq. unfold a_tag. destruct (until _ s) as [[[[t it] x] s1]|] eqn:U; [|discriminate].
  destruct (until_tag _ _ _ _ _ U) as (N1 & N2 & C). destruct (cstr t) as [|t0 tr] eqn:Et; [discriminate|].
  destruct (it =? 1) eqn:I.
  - destruct C as [[-> E]|(-> & w & Hw & E)]; [discriminate|].
    destruct (A_attrs (skip s1) d no_attrs) as [[[[s2 d2] a2] e2]|] eqn:Aa; [|discriminate]. intros H; injection H as <- <- <- <- <-.
    destruct (skip_blank_split s1) as (w1 & Bw1 & Ew1).
    assert (Cs : closed_quotes (skip s1)).
    { apply (closed_quotes_suffix (t ++ w :: w1)). rewrite <- app_assoc. cbn [app]. rewrite <- Ew1, <- E. exact Cq. }
    exact (attrs_made _ _ _ _ _ _ _ _ Cs made_none Aa).
  - destruct (Ascii.eqb _ _); intros H; injection H as <- <- <- <- <-; exact made_none.
Qed.
Lemma parse_made content d n : closed_quotes content -> doc_parse content = Ok (Some d) -> d_root d = Some n -> every (fun n => made (n_attrs n)) n.
Proof.
  intros Cq H R. apply (parse_every content (fun _ a => made a)) with (d := d); [|exact H|exact R].
  intros u s d0 r d' a name e E T. eapply tag_made; [|exact T]. apply (closed_quotes_suffix u). rewrite <- E. exact Cq.
Qed.

Scheme elem_loose_mut := Induction for elem_loose Sort Prop
  with body_loose_mut := Induction for body_loose Sort Prop.
Combined Scheme loose_both from elem_loose_mut, body_loose_mut.

Lemma regular_app l m : regular_items l -> regular_items m -> regular_items (l ++ m).
Proof. intros H K. induction H; cbn [app]; [exact K|constructor; assumption..]. Qed.
Lemma nul_free_app a b : nul_free (a ++ b) <-> nul_free a /\ nul_free b.
Proof. unfold nul_free. rewrite in_app_iff. tauto. Qed.
Lemma every_split P l m : every_items P (l ++ m) -> every_items P l /\ every_items P m.
Proof.
  induction l as [|i l IH]; cbn [app]; intro H; [split; [constructor|exact H]|].
  inversion H; subst.
  - destruct (IH ltac:(assumption)). split; [apply every_elem|]; assumption.
  - destruct (IH ltac:(assumption)). split; [apply every_other|]; assumption.
Qed.
Lemma misc_regular s l : misc_loose s l -> nul_free s -> regular_items l.
Proof.
  intro H. induction H; intro N; rewrite ?nul_free_app in N.
  - constructor.
  - tauto.
  - constructor; tauto.
  - destruct H; constructor; try apply cstr_nul_free; try tauto; intros v X; [discriminate|]. injection X as <-. apply cstr_nul_free.
Qed.
Lemma loose_regular :
  (forall s n, elem_loose s n -> nul_free s -> every (fun n => made (n_attrs n)) n -> regular n) /\
  (forall s l, body_loose s l -> nul_free s -> every_items (fun n => made (n_attrs n)) l -> regular_items l).
Proof.
  apply loose_both.
  - intros o name ats a T _ N E. inversion E; subst. constructor; [eapply tag_name; exact T|assumption|constructor].
  - intros o name ats a body items c T _ B IH _ N E. rewrite !nul_free_app in N. inversion E; subst.
    constructor; [eapply tag_name; exact T|assumption|apply IH; tauto].
  - constructor.
  - intros s l t m M _ IH N E. rewrite nul_free_app in N. apply every_split in E. apply regular_app; [eapply misc_regular; [exact M|tauto]|tauto].
  - intros s t m _ _ _ IH N E. rewrite nul_free_app in N. apply (every_split _ [_]) in E. constructor; [apply cstr_nul_free|tauto].
  - intros s t m _ _ IH N E. rewrite !nul_free_app in N. apply (every_split _ [_]) in E. constructor; [apply cstr_nul_free|tauto].
  - intros s l b e n t m M _ _ IHe _ IHb N E. rewrite !nul_free_app in N. apply every_split in E. destruct E as [_ E].
    apply regular_app; [eapply misc_regular; [exact M|tauto]|]. inversion E; subst; [|exfalso; match goal with H : forall n, _ <> _ |- _ => eapply H; reflexivity end].
    constructor; tauto.
Qed.
Lemma parse_regular content d n : nul_free content -> closed_quotes content -> doc_parse content = Ok (Some d) -> d_root d = Some n -> regular n.
Proof.
  intros N Cq H R. destruct (parse_sound _ _ H) as (n' & R' & pre & b & e & post & E & _ & _ & El). rewrite R in R'. injection R' as <-.
  eapply (proj1 loose_regular); [exact El| |eapply parse_made; eassumption].
  rewrite E, !nul_free_app in N. tauto.
Qed.

(** the parser makes no references *)
Lemma misc_no_ref s l : misc_loose s l -> forallb (fun i => no_ref i && match i with INode c => all_items no_ref c | _ => true end) l = true.
Proof. intro H. induction H; cbn [forallb no_ref andb]; auto. Qed.
Lemma loose_no_ref :
  (forall s n, elem_loose s n -> all_items no_ref n = true) /\
  (forall s l, body_loose s l -> forallb (fun i => no_ref i && match i with INode c => all_items no_ref c | _ => true end) l = true).
Proof.
  apply loose_both; intros; cbn [all_items forallb no_ref andb]; rewrite ?forallb_app; cbn [forallb no_ref andb]; auto.
  - rewrite (misc_no_ref s l) by assumption. auto.
  - rewrite (misc_no_ref s l) by assumption. rewrite H, H0. reflexivity.
Qed.
Lemma parse_no_ref content d n : doc_parse content = Ok (Some d) -> d_root d = Some n -> all_items no_ref n = true.
Proof.
  intros H R. destruct (parse_sound _ _ H) as (n' & R' & pre & b & e & post & E & _ & _ & El). rewrite R in R'. injection R' as <-.
  eapply (proj1 loose_no_ref). exact El.
Qed.

(** documents *)
Lemma doc_decides t d d2 n n2 x x2 : d_root d = Some n -> d_root d2 = Some n2 -> regular n -> regular n2 -> all_items pi_full n = true ->
  shows n x -> shows n2 x2 ->
  exists b, doc_are_equal_common d d2 t = Ok b /\ (b = true <-> same t x x2).
Proof.
  intros E E2 R R2 F S S2. unfold doc_are_equal_common. rewrite E, E2. exact (proj1 (tree_decides t) n x S R F n2 x2 R2 S2).
Qed.
Lemma doc_equivalence t d1 d2 d3 n1 n2 n3 : d_root d1 = Some n1 -> d_root d2 = Some n2 -> d_root d3 = Some n3 ->
  regular n1 -> regular n2 -> regular n3 -> all_items pi_full n1 = true -> all_items pi_full n2 = true -> all_items pi_full n3 = true ->
  doc_are_equal_common d1 d1 t = Ok true /\ doc_are_equal_common d1 d2 t = doc_are_equal_common d2 d1 t /\
  (doc_are_equal_common d1 d2 t = Ok true -> doc_are_equal_common d2 d3 t = Ok true -> doc_are_equal_common d1 d3 t = Ok true).
Proof.
  intros E1 E2 E3 R1 R2 R3 F1 F2 F3. unfold doc_are_equal_common. rewrite E1, E2, E3. split; [apply tree_refl; assumption|]. split; [apply tree_sym; assumption|].
  apply tree_trans; assumption.
Qed.
Lemma node_total n n2 : regular n -> regular n2 -> exists b, node_are_equal n n2 = Ok b.
Proof.
  intros R R2. destruct (regular_node_inv n R) as (N & _ & m & A & G), (regular_node_inv n2 R2) as (N2 & _ & m2 & A2 & G2).
  destruct (node_equal_ok n n2 m m2 N N2 A A2 G G2) as (b & E & _). exists b. exact E.
Qed.
Lemma node_attributes n n2 name name2 ats ats2 l l2 : regular n -> regular n2 ->
  shows n (XNode name ats l) -> shows n2 (XNode name2 ats2 l2) -> node_are_equal n n2 = Ok true -> name = name2 /\ Permutation ats ats2.
Proof.
  intros R R2 S S2 E. destruct (regular_node_inv n R) as (N & _ & m & A & G), (regular_node_inv n2 R2) as (N2 & _ & m2 & A2 & G2).
  destruct (node_equal_ok n n2 m m2 N N2 A A2 G G2) as (b & Eb & H). rewrite E in Eb. injection Eb as <-.
  destruct (proj1 H eq_refl) as (X & _ & _ & _ & P).
  inversion S as [? ? ? ? o1 ? E1 P1]; subst. inversion S2 as [? ? ? ? o2 ? E2 P2]; subst. cbn [n_name n_attrs] in *. split; [exact X|].
  rewrite <- P1, (foreach_perm _ _ _ A E1), P, <- (foreach_perm _ _ _ A2 E2). exact P2.
Qed.
Lemma nul_free_bool s : forallb (fun c => negb (Ascii.eqb c NUL)) s = true -> nul_free s.
Proof.
  intros H I. rewrite forallb_forall in H. apply H in I. rewrite Ascii.eqb_refl in I. discriminate.
Qed.
Lemma nul_free_str s : forallb (fun c => negb (Ascii.eqb c NUL)) (str s) = true -> nul_free (str s).
Proof. apply nul_free_bool. Qed.
