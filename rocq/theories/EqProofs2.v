From Coq Require Import Permutation.
From Verif Require Import Prelude StrModel StrSpec StrProofs StrProofs2 EscModel EscSpec EscProofs EscProofs2 HashModel HashSpec HashStrProofs AttrSpec AttrModel AttrProofs TreeModel XmlSpec DumpProofs EqModel EqSpec EqProofs.
Open Scope list_scope.
Open Scope nat_scope.

(** ** texts *)
Lemma drop_white_app l s : forallb white l = true -> drop_white (l ++ s) = drop_white s.
Proof.
  induction l as [|c l IH]; cbn [forallb app drop_white]; [reflexivity|]. intro H. apply andb_true_iff in H. destruct H as [H1 H2].
  rewrite H1. apply IH. exact H2.
Qed.
Lemma drop_white_all l : forallb white l = true -> drop_white l = [].
Proof. intro H. rewrite <- (app_nil_r l), drop_white_app by exact H. reflexivity. Qed.
Lemma drop_white_stop s : match s with [] => True | c :: _ => white c = false end -> drop_white s = s.
Proof. destruct s as [|c s]; cbn [drop_white]; [reflexivity|]. intros ->. reflexivity. Qed.
Lemma forallb_rev {A} (f : A -> bool) l : forallb f (rev l) = forallb f l.
Proof.
  induction l as [|a l IH]; [reflexivity|]. cbn [rev forallb]. rewrite forallb_app, IH. cbn [forallb].
  destruct (f a), (forallb f l); reflexivity.
Qed.
Lemma trimmed_strip s t : trimmed s t -> strip s = t.
Proof.
  intros (l & r & -> & Hl & Hr & H1 & H2). unfold strip. rewrite drop_white_app by exact Hl.
  destruct t as [|c t].
  - cbn [app]. rewrite (drop_white_all r Hr). reflexivity.
  - rewrite (drop_white_stop ((c :: t) ++ r)) by exact H1. rewrite rev_app_distr.
    rewrite drop_white_app by (rewrite forallb_rev; exact Hr). rewrite (drop_white_stop (rev (c :: t)) H2).
    apply rev_involutive.
Qed.
Lemma same_text_refl trim s : same_text trim s s.
Proof. destruct trim; reflexivity. Qed.
Lemma same_text_sym trim s t : same_text trim s t -> same_text trim t s.
Proof. destruct trim; cbn; congruence. Qed.
Lemma same_text_trans trim s t u : same_text trim s t -> same_text trim t u -> same_text trim s u.
Proof. destruct trim; cbn; congruence. Qed.
Lemma content_equal_ok b b2 trim : nul_free b -> nul_free b2 ->
  exists r, content_are_equal b b2 trim = Ok r /\ (r = true <-> same_text trim b b2).
Proof.
  intros H H2. unfold content_are_equal. destruct trim; cbn [negb].
  - unfold cs. rewrite !strdup_ok by assumption. cbn [bind].
    destruct (trim_ok (cs b) b) as (c & t & E & T & (Ht & rt & ->) & _); [split; [exact H|exists []; reflexivity]|].
    destruct (trim_ok (cs b2) b2) as (c2 & t2 & E2 & T2 & (Ht2 & rt2 & ->) & _); [split; [exact H2|exists []; reflexivity]|].
    rewrite E, E2. cbn [bind]. rewrite cmp_ok by assumption. eexists. split; [reflexivity|].
    rewrite bytes_eqb_eq. unfold same_text. rewrite (trimmed_strip _ _ T), (trimmed_strip _ _ T2). reflexivity.
  - destruct (Nat.eqb_spec (length b) (length b2)) as [El|Nl]; cbn [negb].
    + rewrite axl_cmp_names by assumption. eexists. split; [reflexivity|]. apply bytes_eqb_eq.
    + eexists. split; [reflexivity|]. split; [discriminate|]. cbn. intros ->. contradiction.
Qed.

(** ** one node *)
Definition shallow (n n2 : node) (m m2 : vmap) : Prop :=
  n_name n = n_name n2 /\ node_is_empty n = node_is_empty n2 /\ node_have_childs n = node_have_childs n2 /\
  child_num (n_items n) = child_num (n_items n2) /\ Permutation m m2.
Lemma node_equal_ok n n2 m m2 : nul_free (n_name n) -> nul_free (n_name n2) ->
  arep (n_attrs n) m -> arep (n_attrs n2) m2 -> Forall vgood m -> Forall vgood m2 ->
  exists b, node_are_equal n n2 = Ok b /\ (b = true <-> shallow n n2 m m2).
Proof.
  intros N N2 R R2 G G2. unfold node_are_equal, shallow. rewrite axl_cmp_names by assumption. cbn [bind].
  destruct (bytes_eqb (n_name n) (n_name n2)) eqn:En; cbn [negb].
  2:{ eexists. split; [reflexivity|]. split; [discriminate|]. intros (E & _). apply bytes_eqb_eq in E. congruence. }
  apply bytes_eqb_eq in En.
  destruct (Bool.eqb (node_is_empty n) (node_is_empty n2)) eqn:Ee; cbn [negb].
  2:{ eexists. split; [reflexivity|]. split; [discriminate|]. intros (_ & E & _). apply Bool.eqb_true_iff in E. congruence. }
  apply Bool.eqb_prop in Ee.
  destruct (Bool.eqb (node_have_childs n) (node_have_childs n2)) eqn:Ec; cbn [negb].
  2:{ eexists. split; [reflexivity|]. split; [discriminate|]. intros (_ & _ & E & _). apply Bool.eqb_true_iff in E. congruence. }
  apply Bool.eqb_prop in Ec.
  destruct (Nat.eqb_spec (child_num (n_items n)) (child_num (n_items n2))) as [Ek|Nk]; cbn [negb].
  2:{ eexists. split; [reflexivity|]. split; [discriminate|]. intros (_ & _ & _ & E & _). congruence. }
  destruct (attrs_equal_ok _ _ _ _ R R2 G G2) as (b & E & Hb). rewrite E. exists b. split; [reflexivity|]. tauto.
Qed.
Lemma regular_node_inv n : regular n -> nul_free (n_name n) /\ regular_items (n_items n) /\ exists m, arep (n_attrs n) m /\ Forall vgood m.
Proof. intros H. destruct H as [name a l H1 H2 H3]. cbn. split; [exact H1|]. split; [exact H3|]. apply made_arep. exact H2. Qed.

Lemma node_refl n : regular n -> node_are_equal n n = Ok true.
Proof.
  intro H. destruct (regular_node_inv n H) as (N & _ & m & R & G). destruct (node_equal_ok n n m m N N R R G G) as (b & E & Hb).
  rewrite E. f_equal. apply Hb. repeat split; reflexivity.
Qed.
Lemma node_sym n n2 : regular n -> regular n2 -> node_are_equal n n2 = node_are_equal n2 n.
Proof.
  intros H H2. destruct (regular_node_inv n H) as (N & _ & m & R & G), (regular_node_inv n2 H2) as (N2 & _ & m2 & R2 & G2).
  destruct (node_equal_ok n n2 m m2 N N2 R R2 G G2) as (b & E & Hb), (node_equal_ok n2 n m2 m N2 N R2 R G2 G) as (b2 & E2 & Hb2).
  rewrite E, E2. f_equal. apply eq_true_iff_eq. rewrite Hb, Hb2. unfold shallow.
  split; intros (A & B & C & D & P); repeat split; try congruence; apply Permutation_sym; exact P.
Qed.
Lemma node_trans n n2 n3 : regular n -> regular n2 -> regular n3 ->
  node_are_equal n n2 = Ok true -> node_are_equal n2 n3 = Ok true -> node_are_equal n n3 = Ok true.
Proof.
  intros H H2 H3. destruct (regular_node_inv n H) as (N & _ & m & R & G), (regular_node_inv n2 H2) as (N2 & _ & m2 & R2 & G2),
    (regular_node_inv n3 H3) as (N3 & _ & m3 & R3 & G3).
  destruct (node_equal_ok n n2 m m2 N N2 R R2 G G2) as (b & E & Hb), (node_equal_ok n2 n3 m2 m3 N2 N3 R2 R3 G2 G3) as (b2 & E2 & Hb2),
    (node_equal_ok n n3 m m3 N N3 R R3 G G3) as (b3 & E3 & Hb3).
  rewrite E, E2, E3. intros X Y. injection X as ->. injection Y as ->. f_equal. apply Hb3.
  destruct (proj1 Hb eq_refl) as (A & B & C & D & P), (proj1 Hb2 eq_refl) as (A2 & B2 & C2 & D2 & P2).
  repeat split; try congruence. etransitivity; eassumption.
Qed.

(** ** trees *)
Definition items_eq (trim : bool) : list item -> list item -> res bool :=
  fix go (l l2 : list item) {struct l} : res bool :=
    match l, l2 with
    | i :: r, i2 :: r2 =>
      e <- item_are_equal i i2 trim ;;
      if negb e then Ok false
      else
        e <- match i, i2 with
             | INode c, INode c2 => tree_are_equal c c2 trim
             | _, _ => Ok true
             end ;;
        if negb e then Ok false else go r r2
    | [], [] => Ok true
    | _, _ => Ok false
    end.
Lemma tree_unfold name a l n2 trim : tree_are_equal (Node name a l) n2 trim =
  (e <- node_are_equal (Node name a l) n2 ;;
   if negb e then Ok false
   else if negb (Nat.eqb (child_num l) (child_num (n_items n2))) then Ok false
   else items_eq trim l (n_items n2)).
Proof. reflexivity. Qed.
Lemma items_eq_cons trim i r i2 r2 : items_eq trim (i :: r) (i2 :: r2) =
  (e <- item_are_equal i i2 trim ;;
   if negb e then Ok false
   else
     e <- match i, i2 with
          | INode c, INode c2 => tree_are_equal c c2 trim
          | _, _ => Ok true
          end ;;
     if negb e then Ok false else items_eq trim r r2).
Proof. reflexivity. Qed.

(** what the checks on one node look at is determined by the items *)
Lemma same_items_shape trim m m2 : same_items trim m m2 -> forall l l2, shows_items l m -> shows_items l2 m2 ->
  items_empty l = items_empty l2 /\ items_childs l = items_childs l2 /\ child_num l = child_num l2.
Proof.
  intro H. induction H; intros L L2 S1 S2; inversion S1; subst; inversion S2; subst; try (repeat split; reflexivity);
    cbn [items_empty items_childs child_num];
    match goal with
    | A : forall l l2, shows_items l ?m -> shows_items l2 ?m2 -> _, B : shows_items ?l ?m, C : shows_items ?l2 ?m2 |- _ =>
      destruct (A _ _ B C) as (? & ? & ?); repeat split; congruence
    end.
Qed.

Lemma text_step trim (c : bytes -> xitem) s t l m (r : bool) (Q : Prop) (b : bool) :
  (r = true <-> same_text trim s t) -> (b = true <-> same_items trim l m) ->
  (same_items trim (c s :: l) (c t :: m) <-> same_text trim s t /\ same_items trim l m) ->
  (r && b = true <-> same_items trim (c s :: l) (c t :: m)).
Proof. intros H1 H2 H3. rewrite andb_true_iff, H3. tauto. Qed.

Lemma tree_decides trim :
  (forall n x, shows n x -> regular n -> all_items pi_full n = true -> forall n2 x2, regular n2 -> shows n2 x2 ->
    exists b, tree_are_equal n n2 trim = Ok b /\ (b = true <-> same trim x x2)) /\
  (forall l m, shows_items l m -> regular_items l ->
    forallb (fun i => pi_full i && match i with INode c => all_items pi_full c | _ => true end) l = true ->
    forall l2 m2, regular_items l2 -> shows_items l2 m2 ->
    exists b, items_eq trim l l2 = Ok b /\ (b = true <-> same_items trim m m2)).
Proof.
  apply shows_both.
  - intros name a items ats l xs E P Sh IH Rg F n2 x2 Rg2 S2. cbn [all_items] in F. rewrite tree_unfold.
    destruct (regular_node_inv _ Rg) as (N & Ri & m & R & G), (regular_node_inv _ Rg2) as (N2 & Ri2 & m2 & R2 & G2).
    destruct (node_equal_ok (Node name a items) n2 m m2 N N2 R R2 G G2) as (b & Eb & Hb). rewrite Eb. cbn [bind].
    inversion S2 as [name2 a2 items2 ats2 l2 xs2 E2 P2 Sh2]; subst. cbn [n_name n_attrs n_items] in *.
    pose proof (foreach_perm a m l R E) as Pm. pose proof (foreach_perm a2 m2 l2 R2 E2) as Pm2.
    assert (PP : Permutation ats ats2 <-> Permutation m m2).
    { split; intro X.
      - rewrite <- Pm, P, X, <- P2, Pm2. reflexivity.
      - rewrite <- P, Pm, X, <- Pm2, P2. reflexivity. }
    destruct (IH Ri F items2 xs2 Ri2 Sh2) as (bi & Ei & Hi).
    destruct b; cbn [negb].
    + destruct (proj1 Hb eq_refl) as (An & Ae & Ac & Ak & Ap). cbn [n_name n_items] in *.
      rewrite Ak, Nat.eqb_refl. cbn [negb]. rewrite Ei. exists bi. split; [reflexivity|]. rewrite Hi. subst name2. split.
      * intro H. constructor; [apply PP; exact Ap|exact H].
      * intro H. inversion H; subst. assumption.
    + exists false. split; [reflexivity|]. split; [discriminate|]. intro H. inversion H; subst. apply Hb.
      destruct (same_items_shape trim xs xs2 ltac:(assumption) items items2 Sh Sh2) as (? & ? & ?).
      unfold shallow, node_is_empty, node_have_childs. cbn [n_name n_items]. repeat split; try assumption. apply PP. assumption.
  - intros _ _ l2 m2 _ S2. destruct l2; inversion S2; subst; cbn [items_eq]; eexists; (split; [reflexivity|]);
      (split; [intro; try constructor; try discriminate|intro H; inversion H; reflexivity]).
  - intros n x l m Sn IHn Sl IHl Rg F l2 m2 Rg2 S2. inversion Rg as [|? ? Rn Rl| | | | |]; subst.
    cbn [forallb] in F. rewrite !andb_true_iff in F. destruct F as ((_ & Fn) & Fl).
    destruct l2 as [|i2 l2]; [inversion S2; subst; exists false; split; [reflexivity|]; split; [discriminate|intro H; inversion H]|].
    rewrite items_eq_cons.
    destruct i2 as [n2|b2|b2|p2|b2|b2]; cbn [item_are_equal bind negb];
      try (inversion S2; subst; exists false; split; [reflexivity|]; split; [discriminate|intro H; inversion H]; fail).
    inversion S2 as [|? x2 ? m2' Sn2 Sl2| | | | |]; subst. inversion Rg2 as [|? ? Rn2 Rl2| | | | |]; subst.
    destruct (IHn Rn Fn n2 x2 Rn2 Sn2) as (b & Eb & Hb). destruct (IHl Rl Fl l2 m2' Rl2 Sl2) as (bl & El & Hl).
    assert (Sm : same_items trim (XElem x :: m) (XElem x2 :: m2') <-> same trim x x2 /\ same_items trim m m2').
    { split; [intro H; inversion H; auto|]. intros [? ?]. constructor; assumption. }
    assert (Sh : exists b0, node_are_equal n n2 = Ok b0 /\ (b = true -> b0 = true)).
    { destruct n as [nm a its]. rewrite tree_unfold in Eb. destruct (node_are_equal (Node nm a its) n2) as [b0| |]; [|discriminate|discriminate].
      exists b0. split; [reflexivity|]. intros ->. cbn [bind] in Eb. destruct b0; [reflexivity|discriminate]. }
    destruct Sh as (b0 & E0 & H0). rewrite E0. cbn [bind].
    destruct b0; cbn [negb].
    + rewrite Eb. cbn [bind]. destruct b; cbn [negb].
      * rewrite El. exists bl. split; [reflexivity|]. rewrite Sm, <- Hb, Hl. tauto.
      * exists false. split; [reflexivity|]. rewrite Sm, <- Hb. split; [discriminate|tauto].
    + exists false. split; [reflexivity|]. rewrite Sm, <- Hb. split; [discriminate|]. intros [X _]. apply H0 in X. discriminate.
  - intros t l m Sl IHl Rg F l2 m2 Rg2 S2. inversion Rg as [| |? ? Ht Rl| | | |]; subst.
    cbn [forallb] in F. rewrite !andb_true_iff in F. destruct F as (_ & Fl).
    destruct l2 as [|i2 l2]; [inversion S2; subst; exists false; split; [reflexivity|]; split; [discriminate|intro H; inversion H]|].
    rewrite items_eq_cons.
    destruct i2 as [n2|b2|b2|p2|b2|b2]; cbn [item_are_equal bind negb];
      try (inversion S2; subst; exists false; split; [reflexivity|]; split; [discriminate|intro H; inversion H]; fail).
    inversion S2 as [| |? ? m2' Sl2| | | |]; subst. inversion Rg2 as [| |? ? Ht2 Rl2| | | |]; subst.
    destruct (content_equal_ok t b2 trim Ht Ht2) as (r & Er & Hr). destruct (IHl Rl Fl l2 m2' Rl2 Sl2) as (bl & El & Hl).
    rewrite Er. cbn [bind]. exists (r && bl). split; [destruct r; cbn [negb]; [rewrite El|]; reflexivity|].
    apply (text_step trim XText t b2 m m2' r True bl Hr Hl). split; [intro H; inversion H; auto|]. intros [? ?]. constructor; assumption.
  - intros t l m Sl IHl Rg F l2 m2 Rg2 S2. inversion Rg as [| | |? ? Ht Rl| | |]; subst.
    cbn [forallb] in F. rewrite !andb_true_iff in F. destruct F as (_ & Fl).
    destruct l2 as [|i2 l2]; [inversion S2; subst; exists false; split; [reflexivity|]; split; [discriminate|intro H; inversion H]|].
    rewrite items_eq_cons.
    destruct i2 as [n2|b2|b2|p2|b2|b2]; cbn [item_are_equal bind negb];
      try (inversion S2; subst; exists false; split; [reflexivity|]; split; [discriminate|intro H; inversion H]; fail).
    inversion S2 as [| | |? ? m2' Sl2| | |]; subst. inversion Rg2 as [| | |? ? Ht2 Rl2| | |]; subst.
    destruct (content_equal_ok t b2 trim Ht Ht2) as (r & Er & Hr). destruct (IHl Rl Fl l2 m2' Rl2 Sl2) as (bl & El & Hl).
    rewrite Er. cbn [bind]. exists (r && bl). split; [destruct r; cbn [negb]; [rewrite El|]; reflexivity|].
    apply (text_step trim XCdata t b2 m m2' r True bl Hr Hl). split; [intro H; inversion H; auto|]. intros [? ?]. constructor; assumption.
  - intros p l m Sl IHl Rg F l2 m2 Rg2 S2. inversion Rg as [| | | | | |pn pc ? Hn Hc Rl]; subst.
    cbn [forallb] in F. rewrite !andb_true_iff in F. destruct F as ((Fp & _) & Fl).
    destruct l2 as [|i2 l2]; [inversion S2; subst; exists false; split; [reflexivity|]; split; [discriminate|intro H; inversion H]|].
    rewrite items_eq_cons.
    destruct i2 as [n2|b2|b2|p2|b2|b2]; cbn [item_are_equal bind negb];
      try (inversion S2; subst; exists false; split; [reflexivity|]; split; [discriminate|intro H; inversion H]; fail).
    inversion S2 as [| | | |? ? m2' Sl2| |]; subst. inversion Rg2 as [| | | | | |pn2 pc2 ? Hn2 Hc2 Rl2]; subst.
    destruct pc as [pc|]; [|discriminate].
    destruct (IHl Rl Fl l2 m2' Rl2 Sl2) as (bl & El & Hl). cbn [pi_name pi_content].
    unfold pi_are_equal. cbn [pi_name pi_content]. rewrite axl_cmp_names by assumption. cbn [bind].
    assert (Er : exists r, (if negb (bytes_eqb pn pn2) then Ok false else cmp_opt (Some pc) pc2) = Ok r /\ (r = true <-> pn = pn2 /\ Some pc = pc2)).
    { destruct (bytes_eqb pn pn2) eqn:En; cbn [negb].
      - apply bytes_eqb_eq in En. destruct pc2 as [pc2|].
        + rewrite cmp_opt_some by auto. eexists. split; [reflexivity|]. rewrite bytes_eqb_eq. split; [intros ->; auto|intros [_ X]; congruence].
        + exists false. split; [reflexivity|]. split; [discriminate|intros [_ X]; discriminate].
      - exists false. split; [reflexivity|]. split; [discriminate|]. intros [X _]. apply bytes_eqb_eq in X. congruence. }
    destruct Er as (r & Er & Hr). rewrite Er. cbn [bind]. exists (r && bl).
    split; [destruct r; cbn [negb]; [rewrite El|]; reflexivity|].
    rewrite andb_true_iff, Hr, Hl. split.
    + intros ((-> & <-) & X). constructor. exact X.
    + intro H. inversion H; subst. auto.
  - intros t l m Sl IHl Rg F l2 m2 Rg2 S2. inversion Rg as [| | | |? ? Ht Rl| |]; subst.
    cbn [forallb] in F. rewrite !andb_true_iff in F. destruct F as (_ & Fl).
    destruct l2 as [|i2 l2]; [inversion S2; subst; exists false; split; [reflexivity|]; split; [discriminate|intro H; inversion H]|].
    rewrite items_eq_cons.
    destruct i2 as [n2|b2|b2|p2|b2|b2]; cbn [item_are_equal bind negb];
      try (inversion S2; subst; exists false; split; [reflexivity|]; split; [discriminate|intro H; inversion H]; fail).
    inversion S2 as [| | | | |? ? m2' Sl2|]; subst. inversion Rg2 as [| | | |? ? Ht2 Rl2| |]; subst.
    destruct (content_equal_ok t b2 trim Ht Ht2) as (r & Er & Hr). destruct (IHl Rl Fl l2 m2' Rl2 Sl2) as (bl & El & Hl).
    rewrite Er. cbn [bind]. exists (r && bl). split; [destruct r; cbn [negb]; [rewrite El|]; reflexivity|].
    apply (text_step trim XComment t b2 m m2' r True bl Hr Hl). split; [intro H; inversion H; auto|]. intros [? ?]. constructor; assumption.
  - intros t l m Sl IHl Rg F l2 m2 Rg2 S2. inversion Rg as [| | | | |? ? Ht Rl|]; subst.
    cbn [forallb] in F. rewrite !andb_true_iff in F. destruct F as (_ & Fl).
    destruct l2 as [|i2 l2]; [inversion S2; subst; exists false; split; [reflexivity|]; split; [discriminate|intro H; inversion H]|].
    rewrite items_eq_cons.
    destruct i2 as [n2|b2|b2|p2|b2|b2]; cbn [item_are_equal bind negb];
      try (inversion S2; subst; exists false; split; [reflexivity|]; split; [discriminate|intro H; inversion H]; fail).
    inversion S2 as [| | | | | |? ? m2' Sl2]; subst. inversion Rg2 as [| | | | |? ? Ht2 Rl2|]; subst.
    destruct (content_equal_ok t b2 trim Ht Ht2) as (r & Er & Hr). destruct (IHl Rl Fl l2 m2' Rl2 Sl2) as (bl & El & Hl).
    rewrite Er. cbn [bind]. exists (r && bl). split; [destruct r; cbn [negb]; [rewrite El|]; reflexivity|].
    apply (text_step trim XRef t b2 m m2' r True bl Hr Hl). split; [intro H; inversion H; auto|]. intros [? ?]. constructor; assumption.
Qed.
