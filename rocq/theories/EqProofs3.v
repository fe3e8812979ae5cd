From Coq Require Import Permutation.
From Verif Require Import Prelude HashSpec StrModel StrSpec StrProofs EscModel EscSpec EscProofs EscProofs2 AttrSpec AttrModel AttrProofs TreeModel XmlSpec DumpProofs EqModel EqSpec EqProofs EqProofs2.
Open Scope list_scope.
Open Scope nat_scope.

Scheme regular_mut := Induction for regular Sort Prop
  with regular_items_mut := Induction for regular_items Sort Prop.
Combined Scheme regular_both from regular_mut, regular_items_mut.
Scheme same_mut := Induction for same Sort Prop
  with same_items_mut := Induction for same_items Sort Prop.
Combined Scheme same_both from same_mut, same_items_mut.

(** every regular tree shows something *)
Lemma foreach_ok a m : arep a m -> exists l, attr_foreach (fun _ _ => false) a = Ok l /\ Permutation l m.
Proof.
  intro R. destruct (enumerate_ok a m R) as (o & P & F & _). exists (take_until (fun _ _ => false) o). split; [apply F|].
  apply (foreach_perm a m); [exact R|apply F].
Qed.
Lemma shows_exists : (forall n, regular n -> exists x, shows n x) /\ (forall l, regular_items l -> exists m, shows_items l m).
Proof.
  apply regular_both.
  - intros name a l N M Rl (xs & H). destruct (made_arep a M) as (m & R & _). destruct (foreach_ok a m R) as (o & E & P).
    exists (XNode name m xs). econstructor; eassumption.
  - exists []. constructor.
  - intros n l _ (x & Hx) _ (m & Hm). exists (XElem x :: m). constructor; assumption.
  - intros b l _ _ (m & Hm). exists (XText b :: m). constructor; assumption.
  - intros b l _ _ (m & Hm). exists (XCdata b :: m). constructor; assumption.
  - intros b l _ _ (m & Hm). exists (XComment b :: m). constructor; assumption.
  - intros b l _ _ (m & Hm). exists (XRef b :: m). constructor; assumption.
  - intros n c l _ _ _ (m & Hm). exists (XPi n c :: m). exact (shows_pi (Pi n c) l m Hm).
Qed.

(** [same] is an equivalence *)
Lemma same_refl_items trim : (forall n x, shows n x -> same trim x x) /\ (forall l m, shows_items l m -> same_items trim m m).
Proof.
  apply shows_both; intros; constructor; auto using same_text_refl.
Qed.
Lemma same_sym_both trim : (forall x y, same trim x y -> same trim y x) /\ (forall l m, same_items trim l m -> same_items trim m l).
Proof.
  apply same_both; intros; constructor; auto using same_text_sym, Permutation_sym.
Qed.
Lemma same_trans_both trim : (forall x y, same trim x y -> forall z, same trim y z -> same trim x z) /\
  (forall l m, same_items trim l m -> forall k, same_items trim m k -> same_items trim l k).
Proof.
  apply same_both; intros;
    match goal with H : same trim (XNode _ _ _) _ |- _ => inversion H | H : same_items trim (_ :: _) _ |- _ => inversion H
      | H : same_items trim [] _ |- _ => inversion H end; subst;
    constructor; eauto using same_text_trans, Permutation_trans.
Qed.

Lemma tree_refl trim n : regular n -> all_items pi_full n = true -> tree_are_equal n n trim = Ok true.
Proof.
  intros R F. destruct (proj1 shows_exists n R) as (x & S). destruct (proj1 (tree_decides trim) n x S R F n x R S) as (b & E & H).
  rewrite E. f_equal. apply H. apply (proj1 (same_refl_items trim) n x S).
Qed.
Lemma tree_sym trim n n2 : regular n -> all_items pi_full n = true -> regular n2 -> all_items pi_full n2 = true ->
  tree_are_equal n n2 trim = tree_are_equal n2 n trim.
Proof.
  intros R F R2 F2. destruct (proj1 shows_exists n R) as (x & S), (proj1 shows_exists n2 R2) as (x2 & S2).
  destruct (proj1 (tree_decides trim) n x S R F n2 x2 R2 S2) as (b & E & H).
  destruct (proj1 (tree_decides trim) n2 x2 S2 R2 F2 n x R S) as (b2 & E2 & H2).
  rewrite E, E2. f_equal. apply eq_true_iff_eq. rewrite H, H2. split; apply same_sym_both.
Qed.
Lemma tree_trans trim n n2 n3 : regular n -> all_items pi_full n = true -> regular n2 -> all_items pi_full n2 = true -> regular n3 ->
  tree_are_equal n n2 trim = Ok true -> tree_are_equal n2 n3 trim = Ok true -> tree_are_equal n n3 trim = Ok true.
Proof.
  intros R F R2 F2 R3.
  destruct (proj1 shows_exists n R) as (x & S), (proj1 shows_exists n2 R2) as (x2 & S2), (proj1 shows_exists n3 R3) as (x3 & S3).
  destruct (proj1 (tree_decides trim) n x S R F n2 x2 R2 S2) as (b & E & H).
  destruct (proj1 (tree_decides trim) n2 x2 S2 R2 F2 n3 x3 R3 S3) as (b2 & E2 & H2).
  destruct (proj1 (tree_decides trim) n x S R F n3 x3 R3 S3) as (b3 & E3 & H3).
  rewrite E, E2, E3. intros X Y. injection X as ->. injection Y as ->. f_equal. apply H3.
  apply (proj1 (same_trans_both trim) x x2); [apply H|apply H2]; reflexivity.
Qed.

(** ** copies *)
Definition copy_items : list item -> res (list item) :=
  fix go (l : list item) {struct l} : res (list item) :=
    match l with
    | [] => Ok []
    | i :: r => i <- item_copy i ;; r <- go r ;; Ok (i :: r)
    end.
Lemma node_copy_unfold name a l ca cc : node_copy (Node name a l) ca cc =
  (name <- dup name ;;
   a <- (if ca then copy_attrs a else Ok no_attrs) ;;
   l <- (if cc then copy_items l else Ok []) ;;
   Ok (Node name a l)).
Proof. reflexivity. Qed.
Lemma copy_items_cons i r : copy_items (i :: r) = (i <- item_copy i ;; r <- copy_items r ;; Ok (i :: r)).
Proof. reflexivity. Qed.
Lemma copy_content_ok b : nul_free b -> copy_content b = Ok b.
Proof. intro H. unfold copy_content. rewrite dup_ok by exact H. cbn [bind]. rewrite Nat.eqb_refl. reflexivity. Qed.
Lemma pi_copy_ok n c : nul_free n -> (forall v, c = Some v -> nul_free v) -> pi_copy (Pi n c) = Ok (Pi n c).
Proof.
  intros Hn Hc. unfold pi_copy. cbn [pi_name pi_content]. rewrite dup_ok by exact Hn. cbn [bind].
  destruct c as [v|]; [|reflexivity]. cbn [dup_opt]. rewrite dup_ok by auto. reflexivity.
Qed.
Lemma attrs_copy_shows a : made a -> exists a', copy_attrs a = Ok a' /\ made a' /\
  forall l ats, attr_foreach (fun _ _ => false) a = Ok l -> Permutation l ats ->
  exists l', attr_foreach (fun _ _ => false) a' = Ok l' /\ Permutation l' ats.
Proof.
  intro M. destruct (made_arep a M) as (m & R & G). destruct (copy_attrs_ok a m R G) as (a' & E & R'). exists a'. split; [exact E|].
  split; [exact (made_copy a a' M E)|]. intros l ats Ef P. destruct (foreach_ok a' m R') as (l' & E' & P'). exists l'. split; [exact E'|].
  rewrite P', <- P. symmetry. exact (foreach_perm a m l R Ef).
Qed.
Lemma copy_both :
  (forall n, regular n -> all_items no_ref n = true -> exists c, node_copy n true true = Ok c /\ regular c /\ (forall x, shows n x -> shows c x) /\
    (all_items pi_full n = true -> all_items pi_full c = true)) /\
  (forall l, regular_items l -> forallb (fun i => no_ref i && match i with INode c => all_items no_ref c | _ => true end) l = true ->
    exists c, copy_items l = Ok c /\ regular_items c /\ (forall m, shows_items l m -> shows_items c m) /\
    (forallb (fun i => pi_full i && match i with INode c => all_items pi_full c | _ => true end) l = true ->
     forallb (fun i => pi_full i && match i with INode c => all_items pi_full c | _ => true end) c = true)).
Proof.
  apply regular_both.
  - intros name a l N M Rl IH F. cbn [all_items] in *. rewrite node_copy_unfold. rewrite dup_ok by exact N. cbn [bind].
    destruct (attrs_copy_shows a M) as (a' & E & M' & Sa). rewrite E. cbn [bind].
    destruct (IH F) as (c & Ec & Rc & Sc & Fc). rewrite Ec. cbn [bind]. eexists. split; [reflexivity|]. split; [constructor; assumption|].
    split; [|exact Fc]. intros x S. inversion S as [? ? ? ats0 l0 xs0 E0 P0 S0]; subst. destruct (Sa _ _ E0 P0) as (l' & E' & P'). econstructor; [exact E'|exact P'|auto].
  - intros _. exists []. repeat split; try constructor. auto.
  - intros n l Rn IHn Rl IHl F. cbn [forallb] in F. rewrite !andb_true_iff in F. destruct F as ((_ & Fn) & Fl).
    destruct (IHn Fn) as (c & Ec & Rc & Sc & Pc), (IHl Fl) as (cl & El & Rcl & Scl & Pl).
    rewrite copy_items_cons. cbn [item_copy]. rewrite Ec. cbn [bind]. rewrite El. cbn [bind]. eexists. split; [reflexivity|].
    split; [constructor; assumption|]. split; [intros m S; inversion S; subst; constructor; auto|].
    cbn [forallb pi_full]. rewrite !andb_true_iff. tauto.
  - intros b l Hb Rl IHl F. cbn [forallb] in F. rewrite !andb_true_iff in F. destruct F as (_ & Fl).
    destruct (IHl Fl) as (cl & El & Rcl & Scl & Pl). rewrite copy_items_cons. cbn [item_copy]. rewrite copy_content_ok by exact Hb. cbn [bind].
    rewrite El. cbn [bind]. eexists. split; [reflexivity|]. split; [constructor; assumption|].
    split; [intros m S; inversion S; subst; constructor; auto|]. cbn [forallb pi_full]. rewrite !andb_true_iff. tauto.
  - intros b l Hb Rl IHl F. cbn [forallb] in F. rewrite !andb_true_iff in F. destruct F as (_ & Fl).
    destruct (IHl Fl) as (cl & El & Rcl & Scl & Pl). rewrite copy_items_cons. cbn [item_copy]. rewrite copy_content_ok by exact Hb. cbn [bind].
    rewrite El. cbn [bind]. eexists. split; [reflexivity|]. split; [constructor; assumption|].
    split; [intros m S; inversion S; subst; constructor; auto|]. cbn [forallb pi_full]. rewrite !andb_true_iff. tauto.
  - intros b l Hb Rl IHl F. cbn [forallb] in F. rewrite !andb_true_iff in F. destruct F as (_ & Fl).
    destruct (IHl Fl) as (cl & El & Rcl & Scl & Pl). rewrite copy_items_cons. cbn [item_copy]. rewrite copy_content_ok by exact Hb. cbn [bind].
    rewrite El. cbn [bind]. eexists. split; [reflexivity|]. split; [constructor; assumption|].
    split; [intros m S; inversion S; subst; constructor; auto|]. cbn [forallb pi_full]. rewrite !andb_true_iff. tauto.
  - intros b l Hb Rl IHl F. discriminate.
  - intros n c l Hn Hc Rl IHl F. cbn [forallb] in F. rewrite !andb_true_iff in F. destruct F as (_ & Fl).
    destruct (IHl Fl) as (cl & El & Rcl & Scl & Pl). rewrite copy_items_cons. cbn [item_copy]. rewrite pi_copy_ok by assumption. cbn [bind].
    rewrite El. cbn [bind]. eexists. split; [reflexivity|]. split; [constructor; assumption|].
    split; [intros m S; inversion S; subst; constructor; auto|]. cbn [forallb]. rewrite !andb_true_iff. tauto.
Qed.

Lemma copy_ok n : regular n -> all_items no_ref n = true -> exists c, node_copy n true true = Ok c /\ regular c /\
  (forall x, shows n x -> shows c x) /\ (forall x, shows c x -> shows n x) /\
  node_are_equal n c = Ok true /\ (all_items pi_full n = true -> forall trim, tree_are_equal n c trim = Ok true).
Proof.
  intros R F. destruct (proj1 copy_both n R F) as (c & E & Rc & Sc & Pc). exists c. split; [exact E|]. split; [exact Rc|]. split; [exact Sc|].
  destruct (proj1 shows_exists n R) as (x & S). pose proof (Sc x S) as S'.
  assert (Sh : forall y, shows c y -> shows n y).
  { (* both show [x]; what [c] shows differs from [x] in the order of attributes only *)
    assert (D : (forall c x, shows c x -> forall n y, shows n x -> shows c y -> shows n y) /\
                (forall l m, shows_items l m -> forall l2 m2, shows_items l2 m -> shows_items l m2 -> shows_items l2 m2)).
    { clear. apply shows_both.
      - intros name a items ats l xs E P _ IH n y Sn Sc. inversion Sn; subst. inversion Sc; subst.
        rewrite E in *. match goal with H : Ok _ = Ok _ |- _ => injection H as <- end.
        econstructor; [eassumption| |eapply IH; eassumption].
        etransitivity; [eassumption|]. etransitivity; [symmetry; exact P|]. assumption.
      - intros l2 m2 S1 S2. inversion S1; subst. inversion S2; subst. constructor.
      - intros n x l m _ IHn _ IHl l2 m2 S1 S2. inversion S1; subst. inversion S2; subst. constructor; [eapply IHn|eapply IHl]; eassumption.
      - intros b l m _ IHl l2 m2 S1 S2. inversion S1; subst. inversion S2; subst. constructor; eapply IHl; eassumption.
      - intros b l m _ IHl l2 m2 S1 S2. inversion S1; subst. inversion S2; subst. constructor; eapply IHl; eassumption.
      - intros p l m _ IHl l2 m2 S1 S2. inversion S1; subst. inversion S2; subst.
        match goal with H : pi_name ?q = pi_name p |- _ => rewrite <- H end.
        match goal with H : pi_content ?q = pi_content p |- _ => rewrite <- H end. constructor; eapply IHl; eassumption.
      - intros b l m _ IHl l2 m2 S1 S2. inversion S1; subst. inversion S2; subst. constructor; eapply IHl; eassumption.
      - intros b l m _ IHl l2 m2 S1 S2. inversion S1; subst. inversion S2; subst. constructor; eapply IHl; eassumption. }
    intros y Sy. exact (proj1 D c x S' n y S Sy). }
  split; [exact Sh|]. split.
  - destruct (regular_node_inv n R) as (N & _ & m & A & G), (regular_node_inv c Rc) as (N2 & _ & m2 & A2 & G2).
    destruct (node_equal_ok n c m m2 N N2 A A2 G G2) as (b & Eb & Hb). rewrite Eb. f_equal. apply Hb.
    inversion S as [nm a its ats l xs E1 P1 Si]; subst. inversion S' as [nm2 a2 its2 ats2 l2 xs2 E2 P2 Si2]; subst.
    cbn [n_name n_attrs n_items] in *. destruct (same_items_shape true xs xs ltac:(apply (proj2 (same_refl_items true) its xs Si)) its its2 Si Si2) as (X & Y & Z).
    unfold shallow, node_is_empty, node_have_childs. cbn [n_name n_items]. repeat split; try assumption.
    rewrite <- (foreach_perm _ _ _ A E1), P1, <- P2. exact (foreach_perm _ _ _ A2 E2).
  - intros Fp trim. destruct (proj1 (tree_decides trim) n x S R Fp c x Rc S') as (b & Eb & Hb). rewrite Eb. f_equal. apply Hb.
    apply (proj1 (same_refl_items trim) n x S).
Qed.
(** the other settings of the flags *)
Lemma copy_flags n ca cc : regular n -> (cc = true -> all_items no_ref n = true) -> exists c, node_copy n ca cc = Ok c /\ regular c /\
  n_name c = n_name n /\
  (ca = false -> n_attrs c = no_attrs) /\ (cc = false -> n_items c = []) /\
  (forall name ats l, shows n (XNode name ats l) -> shows c (XNode name (if ca then ats else []) (if cc then l else []))).
Proof.
  intros R F. destruct R as [name a l N M Rl]. cbn [all_items] in F. rewrite node_copy_unfold. rewrite dup_ok by exact N. cbn [bind].
  assert (A : exists a', (if ca then copy_attrs a else Ok no_attrs) = Ok a' /\ made a' /\ (ca = false -> a' = no_attrs) /\
    forall l ats, attr_foreach (fun _ _ => false) a = Ok l -> Permutation l ats ->
      exists l', attr_foreach (fun _ _ => false) a' = Ok l' /\ Permutation l' (if ca then ats else [])).
  { destruct ca.
    - destruct (attrs_copy_shows a M) as (a' & E & M' & Sa). exists a'. repeat split; try assumption. discriminate.
    - exists no_attrs. repeat split; [constructor|]. intros l0 ats _ _. exists []. split; [reflexivity|constructor]. }
  destruct A as (a' & Ea & Ma & Na & Sa). rewrite Ea. cbn [bind].
  assert (C : exists c, (if cc then copy_items l else Ok []) = Ok c /\ regular_items c /\ (cc = false -> c = []) /\
    forall m, shows_items l m -> shows_items c (if cc then m else [])).
  { destruct cc.
    - destruct (proj2 copy_both l Rl (F eq_refl)) as (c & Ec & Rc & Sc & _). exists c. repeat split; try assumption. discriminate.
    - exists []. repeat split; constructor. }
  destruct C as (c & Ec & Rc & Nc & Sc). rewrite Ec. cbn [bind]. eexists. split; [reflexivity|]. split; [constructor; assumption|].
  cbn [n_name n_attrs n_items]. repeat split; auto. intros nm ats m S. inversion S as [? ? ? ats0 l0 xs0 E0 P0 S0]; subst.
  destruct (Sa _ _ E0 P0) as (l' & E' & P'). econstructor; [exact E'|exact P'|auto].
Qed.
