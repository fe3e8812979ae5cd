(** The two parsers do the same. *)
From Verif Require Import Prelude StrModel AttrModel TreeModel StreamModel ParseModel LinkModel.
From Verif Require ItemModel ItemSpec ItemExec ItemProofs ItemProofs7.
Import ItemModel(KNode, h_nfresh, heap_new).
Import ItemSpec(child, fam, Fam, f_new, f_nodes, f_kids, set_kids, op, ONode, OChild, step_fam, run_fam, fam_new, fit, fits, known, alone, may_hold, parent, parent_in, place).
Import ItemProofs(Rep, r_count, r_nodes).
Open Scope nat_scope.
Open Scope list_scope.
Local Notation lparse := LinkModel.doc_parse.

(** ** outcomes *)
Definition sim {A B} (P : A -> B -> Prop) (x : res A) (y : res B) : Prop :=
  match x, y with
  | Ok a, Ok b => P a b
  | UB, UB => True
  | NoFuel, NoFuel => True
  | _, _ => False
  end.
Definition opt {A B} (P : A -> B -> Prop) (x : option A) (y : option B) : Prop :=
  match x, y with Some a, Some b => P a b | None, None => True | _, _ => False end.
Lemma sim_same {A B C} (P : B -> C -> Prop) (e : res A) f g : (forall a, e = Ok a -> sim P (f a) (g a)) -> sim P (bind e f) (bind e g).
Proof. intros H. destruct e; cbn; auto. Qed.
Lemma sim_bind {A A' B C} (Q : A -> A' -> Prop) (P : B -> C -> Prop) e e' f g : sim Q e e' -> (forall a a', Q a a' -> sim P (f a) (g a')) -> sim P (bind e f) (bind e' g).
Proof. intros S H. destruct e, e'; cbn in *; try contradiction; auto. Qed.
Lemma sim_bindo {A A' B C} (Q : A -> A' -> Prop) (P : B -> C -> Prop) e e' f g : sim (opt Q) e e' -> (forall a a', Q a a' -> sim (opt P) (f a) (g a')) -> sim (opt P) (bindo e f) (bindo e' g).
Proof. intros S H. destruct e as [[a|]| |], e' as [[a'|]| |]; cbn in *; try contradiction; auto. Qed.
Lemma sim_sameo {A B C} (P : B -> C -> Prop) (e : res (option A)) f g : (forall a, sim (opt P) (f a) (g a)) -> sim (opt P) (bindo e f) (bindo e g).
Proof. intros H. destruct e as [[a|]| |]; cbn; auto. Qed.

(** what is inside an element besides elements *)
Definition leaf (i : item) : bool := match i with INode _ | IRef _ => false | _ => true end.
Lemma leaf_kind i : leaf i = true -> kind_of i <> KNode.
Proof. destruct i; discriminate. Qed.

(** ** trees in a family *)
Section Trees.
Variable kids : nat -> list child.
Variable names : list (bytes * attrs).
Variable conts : list item.
Variable ok : nat -> Prop.
Inductive closed : nat -> node -> Prop :=
| Closed n x a l : ok n -> nth_error names n = Some (x, a) -> closed_items (kids n) l -> closed n (Node x a l)
with closed_items : list child -> list item -> Prop :=
| Closed_nil : closed_items [] []
| Closed_node n t cs l : closed n t -> closed_items cs l -> closed_items ((KNode, n) :: cs) (INode t :: l)
| Closed_item i d cs l : leaf i = true -> nth_error conts d = Some i -> closed_items cs l -> closed_items ((kind_of i, d) :: cs) (i :: l).

(** the opened nodes: all children but the one on the way are closed *)
Inductive spine : list nat -> list node -> list child -> Prop :=
| spine_nil tail : spine [] [] tail
| spine_cons a stk x at_ l vs cs tail : nth_error names a = Some (x, at_) -> kids a = cs ++ tail -> closed_items cs l -> spine stk vs [(KNode, a)] ->
    spine (a :: stk) (Node x at_ l :: vs) tail.
Lemma closed_items_app cs1 l1 cs2 l2 : closed_items cs1 l1 -> closed_items cs2 l2 -> closed_items (cs1 ++ cs2) (l1 ++ l2).
Proof. induction 1; cbn [app]; auto; intros; constructor; auto. Qed.
Lemma spine_nil_inv vs tail : spine [] vs tail -> vs = [].
Proof. inversion 1. reflexivity. Qed.
Lemma spine_length stk vs tail : spine stk vs tail -> length stk = length vs.
Proof. induction 1; cbn [length]; auto. Qed.
End Trees.
Scheme closed_mut := Minimality for closed Sort Prop with closed_items_mut := Minimality for closed_items Sort Prop.
Combined Scheme closed_both from closed_mut, closed_items_mut.

Lemma closed_mono kids names conts (ok : nat -> Prop) kids' names' conts' (ok' : nat -> Prop) :
  (forall n, ok n -> ok' n /\ kids' n = kids n /\ forall v, nth_error names n = Some v -> nth_error names' n = Some v) ->
  (forall d v, nth_error conts d = Some v -> nth_error conts' d = Some v) ->
  (forall n t, closed kids names conts ok n t -> closed kids' names' conts' ok' n t) /\
  (forall cs l, closed_items kids names conts ok cs l -> closed_items kids' names' conts' ok' cs l).
Proof.
  intros Hn Hc. apply closed_both.
  - intros n x a l O N _ IH. destruct (Hn n O) as (O' & K & V). constructor; auto. rewrite K. exact IH.
  - constructor.
  - intros n t cs l _ IH _ IH'. constructor; auto.
  - intros i d cs l K N _ IH. constructor; auto.
Qed.
(** the lower part of the stack is left alone *)
Lemma spine_mono kids names conts (ok : nat -> Prop) kids' names' conts' (ok' : nat -> Prop) :
  (forall n, ok n -> ok' n /\ kids' n = kids n /\ forall v, nth_error names n = Some v -> nth_error names' n = Some v) ->
  (forall d v, nth_error conts d = Some v -> nth_error conts' d = Some v) ->
  forall stk vs tail, (forall n, In n stk -> kids' n = kids n /\ forall v, nth_error names n = Some v -> nth_error names' n = Some v) ->
  spine kids names conts ok stk vs tail -> spine kids' names' conts' ok' stk vs tail.
Proof.
  intros Hn Hc stk vs tail Hs Sp. revert Hs. induction Sp; intros Hs; [constructor|].
  destruct (Hs a (or_introl eq_refl)) as (K & V).
  econstructor; [apply V; eassumption|rewrite K; eassumption|eapply (proj2 (closed_mono _ _ _ _ _ _ _ _ Hn Hc)); eassumption|].
  apply IHSp. intros n In_. apply Hs. right. exact In_.
Qed.

(** ** the state *)
Definition okay (l : ldoc) (s : fam) (n : nat) : Prop := n < f_new s /\ ~ In n (l_stack l).
Definition root_fits (l : ldoc) (d : pdoc) (s : fam) : Prop :=
  match p_stack d with
  | [] => match p_root d with
          | None => l_root l = None /\ f_new s = 0
          | Some t => exists r, l_root l = Some r /\ closed (f_kids s) (l_names l) (l_conts l) (okay l s) r t
          end
  | _ => p_root d = None /\ exists r rest, l_root l = Some r /\ l_stack l = rest ++ [r]
  end.
Record good (l : ldoc) (d : pdoc) (ops : list op) (s : fam) ch : Prop := {
  g_fam : run_fam fam_new ops = Some s;
  g_fit : fit fam_new ops = true;
  g_run : ItemExec.run heap_new ops = Ok (l_heap l);
  g_rep : Rep (l_heap l) s ch;
  g_count : f_new s = length (l_names l);
  g_known : forall n, known s n = true <-> n < f_new s;
  g_below : forall p c, In (KNode, c) (f_kids s p) -> p < c < f_new s;
  g_all : forall n, n < f_new s -> l_root l = Some n \/ exists p, In (KNode, n) (f_kids s p);
  g_nodup : NoDup (l_stack l);
  g_stack : forall n, In n (l_stack l) -> n < f_new s;
  g_spine : spine (f_kids s) (l_names l) (l_conts l) (okay l s) (l_stack l) (p_stack d) [];
  g_root : root_fits l d s;
  g_node : l_node l = hd_error (l_stack l);
  g_preserve : l_preserve l = p_preserve d;
  g_header : l_header l = p_header d;
  g_encoding : l_encoding l = p_encoding d;
  g_standalone : l_standalone l = p_standalone d;
  g_pis : l_pis l = p_pis d
}.
Definition inv (l : ldoc) (d : pdoc) : Prop := exists ops s ch, good l d ops s ch.

(** ** calls *)
Lemma run_fam_snoc ops o s s' t : run_fam t ops = Some s -> step_fam s o = Some s' -> run_fam t (ops ++ [o]) = Some s'.
Proof. revert t. induction ops as [|o' ops IH]; intros t E F; cbn [run_fam app] in *; [injection E as ->; rewrite F; reflexivity|]. destruct (step_fam t o'); [apply IH; auto|discriminate]. Qed.
Lemma fit_snoc ops o s t : run_fam t ops = Some s -> fit t ops = true -> fits s o = true -> fit t (ops ++ [o]) = true.
Proof.
  revert t. induction ops as [|o' ops IH]; intros t E F G; cbn [run_fam fit app] in *.
  - injection E as ->. rewrite G. destruct (step_fam s o); reflexivity.
  - destruct (fits t o'); [|discriminate]. destruct (step_fam t o'); [cbn [andb] in *; apply IH; auto|discriminate].
Qed.
Lemma run_snoc ops o h h' t : ItemExec.run t ops = Ok h -> ItemExec.exec h o = Ok h' -> ItemExec.run t (ops ++ [o]) = Ok h'.
Proof.
  revert t. induction ops as [|o' ops IH]; intros t E F; cbn [ItemExec.run app] in *; [injection E as ->; rewrite F; reflexivity|].
  destruct (ItemExec.exec t o'); cbn [bind] in *; try discriminate. apply IH; auto.
Qed.
Lemma known_or s n : known s n = true -> In n (f_nodes s).
Proof. unfold known. rewrite existsb_exists. intros (x & I & E). apply Nat.eqb_eq in E. subst. exact I. Qed.
Lemma place_none n : forall l : list child, ~ In (KNode, n) l -> place n l = None.
Proof.
  induction l as [|[k m] l IH]; intros N; [reflexivity|]. cbn [place]. unfold ItemSpec.eqc. cbn [fst snd].
  destruct k; try (rewrite IH by (intros I; apply N; right; exact I); reflexivity).
  destruct (Nat.eqb_spec n m) as [->|E]; [exfalso; apply N; left; reflexivity|]. rewrite IH by (intros I; apply N; right; exact I). reflexivity.
Qed.
Lemma parent_none s n : (forall p c, In (KNode, c) (f_kids s p) -> c < n) -> parent s n = None.
Proof.
  intros H. unfold parent. induction (f_nodes s) as [|p ps IH]; cbn [parent_in]; [reflexivity|]. rewrite place_none; [exact IH|]. intros I. apply H in I. lia.
Qed.

(** ** what the actions do *)
Lemma inv_new : inv ldoc_new pdoc_new.
Proof.
  exists [], fam_new, (fun _ => []). split; try reflexivity; cbn.
  - apply ItemProofs.rep_new.
  - intros n. split; [discriminate|lia].
  - intros p c [].
  - intros n Q. lia.
  - constructor.
  - intros n [].
  - constructor.
  - split; reflexivity.
Qed.

(** an item under the node on top *)
Lemma inv_put l d i : leaf i = true -> inv l d -> exists l', put_item l (peek l) i = Ok l' /\ inv l' (add_item d i).
Proof.
  intros Lf (ops & s & ch & G). assert (K := leaf_kind i Lf). unfold put_item, peek, add_item.
  assert (Sp := g_spine _ _ _ _ _ G).
  destruct (l_stack l) as [|p stk] eqn:Es; cbn [hd_error].
  - apply spine_nil_inv in Sp. rewrite Sp. exists l. split; [reflexivity|]. exists ops, s, ch. exact G.
  - inversion Sp as [|? ? x a its vs cs ? En Ek Ec Sp' E1 Ep]; subst. rewrite app_nil_r in Ek.
    set (c := (kind_of i, length (l_conts l)) : child).
    assert (Kp : known s p = true) by (apply (g_known _ _ _ _ _ G), (g_stack _ _ _ _ _ G); rewrite Es; left; reflexivity).
    set (s' := Fam (f_new s) (f_nodes s) (set_kids (f_kids s) p (f_kids s p ++ [c]))).
    assert (St : step_fam s (OChild p c) = Some s').
    { cbn [step_fam]. rewrite Kp. unfold may_hold, c. cbn [fst]. destruct (kind_of i); try reflexivity. contradiction. }
    assert (Fi : fits s (OChild p c) = true) by reflexivity.
    destruct (ItemProofs7.exec_step _ _ _ _ _ (g_rep _ _ _ _ _ G) St Fi) as (h' & ch' & Ex & R').
    assert (Ex' : ItemModel.item_set_child (l_heap l) p (kind_of i) (length (l_conts l)) = Ok h').
    { unfold c in Ex. cbn [ItemExec.exec] in Ex. destruct (kind_of i); exact Ex. }
    rewrite Ex'. cbn [bind]. eexists. split; [reflexivity|].
    assert (Nin : ~ In p stk) by (assert (X := g_nodup _ _ _ _ _ G); rewrite Es in X; inversion X; assumption).
    exists (ops ++ [OChild p c]), s', ch'.
    assert (Hn : forall n, okay l s n -> okay (lwith_heap l h' (l_names l) (l_conts l ++ [i])) s' n /\ f_kids s' n = f_kids s n /\ (forall v, nth_error (l_names l) n = Some v -> nth_error (l_names l) n = Some v)).
    { intros n [L N]. split; [split; [exact L|exact N]|]. split; [|auto]. cbn [f_kids s']. unfold set_kids. destruct (Nat.eqb_spec n p) as [->|]; [|reflexivity]. exfalso. apply N. rewrite Es. left. reflexivity. }
    assert (Hc : forall dd v, nth_error (l_conts l) dd = Some v -> nth_error (l_conts l ++ [i]) dd = Some v).
    { intros dd v E. rewrite nth_error_app1; [exact E|]. apply nth_error_Some. rewrite E. discriminate. }
    split; try (destruct G; assumption); cbn [lwith_heap l_heap l_names l_conts l_root l_stack l_node l_preserve l_header l_encoding l_standalone l_pis with_stack p_root p_stack p_preserve p_header p_encoding p_standalone p_pis].
    + eapply run_fam_snoc; [apply (g_fam _ _ _ _ _ G)|exact St].
    + eapply fit_snoc; [apply (g_fam _ _ _ _ _ G)|apply (g_fit _ _ _ _ _ G)|exact Fi].
    + eapply run_snoc; [apply (g_run _ _ _ _ _ G)|exact Ex].
    + intros q m. cbn [f_kids f_new s']. unfold set_kids. destruct (Nat.eqb_spec q p) as [->|]; [|apply (g_below _ _ _ _ _ G)].
      rewrite in_app_iff. intros [I|[E|[]]]; [apply (g_below _ _ _ _ _ G p), I|]. unfold c in E. injection E as E _. contradiction.
    + intros m L. destruct (g_all _ _ _ _ _ G m L) as [E|(q & I)]; [left; exact E|right; exists q]. cbn [f_kids s']. unfold set_kids. destruct (Nat.eqb_spec q p) as [->|]; [apply in_or_app; left|]; exact I.
    + rewrite Es. cbn [add_to]. econstructor; [exact En| | |].
      * rewrite app_nil_r. cbn [f_kids s']. unfold set_kids. rewrite Nat.eqb_refl. reflexivity.
      * apply closed_items_app; [rewrite <- Ek in Ec; exact (proj2 (closed_mono _ _ _ _ _ _ _ _ Hn Hc) _ _ Ec)|].
        constructor; [exact Lf| |constructor]. rewrite nth_error_app2 by lia. rewrite Nat.sub_diag. reflexivity.
      * apply (spine_mono _ _ _ _ _ _ _ _ Hn Hc); [|exact Sp']. intros n I. split; [|auto]. cbn [f_kids s']. unfold set_kids. destruct (Nat.eqb_spec n p) as [->|]; [contradiction|reflexivity].
    + assert (Rf := g_root _ _ _ _ _ G). unfold root_fits in *. rewrite <- Ep in Rf. cbn [p_stack with_stack p_root l_root lwith_heap l_stack] in *. exact Rf.
Qed.

Lemma inv_pi l d p : inv l d -> exists l', put_pi l p = Ok l' /\ inv l' (add_pi d p).
Proof.
  intros V. unfold put_pi, add_pi. destruct (p_stack d) as [|v vs] eqn:Ev.
  - assert (P : peek l = None).
    { destruct V as (ops & s & ch & G). assert (Sp := g_spine _ _ _ _ _ G). rewrite Ev in Sp. unfold peek. inversion Sp. reflexivity. }
    rewrite P. eexists. split; [reflexivity|]. destruct V as (ops & s & ch & G). exists ops, s, ch. destruct G. split; try assumption. cbn. rewrite g_pis0. reflexivity.
  - assert (P : exists n, peek l = Some n).
    { destruct V as (ops & s & ch & G). assert (Sp := g_spine _ _ _ _ _ G). rewrite Ev in Sp. unfold peek. inversion Sp. eexists. reflexivity. }
    destruct P as (n & P). destruct (inv_put l d (IPi p)) as (l' & E & V'); [reflexivity|exact V|]. rewrite P in E |- *. exists l'. split; assumption.
Qed.

(** a new node *)
Lemma nth_old {A} (l : list A) x n v : nth_error l n = Some v -> nth_error (l ++ [x]) n = Some v.
Proof. intros E. rewrite nth_error_app1; [exact E|]. apply nth_error_Some. rewrite E. discriminate. Qed.
Lemma nth_new {A} (l : list A) x : nth_error (l ++ [x]) (length l) = Some x.
Proof. rewrite nth_error_app2 by lia. rewrite Nat.sub_diag. reflexivity. Qed.

Lemma inv_open l d name : inv l d -> p_stack d <> [] \/ p_root d = None ->
  exists l' n, open_node l name = Ok (l', n) /\ peek l' = Some n /\ inv l' (with_stack d (Node name no_attrs [] :: p_stack d)).
Proof.
  intros (ops & s & ch & G) Hr. assert (Sp := g_spine _ _ _ _ _ G). assert (Rf := g_root _ _ _ _ _ G).
  assert (Cn : h_nfresh (l_heap l) = f_new s) by (symmetry; apply (r_count _ _ _ (g_rep _ _ _ _ _ G))).
  set (n := f_new s).
  set (s1 := Fam (S n) (n :: f_nodes s) (set_kids (f_kids s) n [])).
  assert (St1 : step_fam s ONode = Some s1) by reflexivity.
  destruct (ItemProofs7.exec_step _ _ _ _ _ (g_rep _ _ _ _ _ G) St1 eq_refl) as (h1 & ch1 & Ex1 & R1).
  assert (F1 := run_fam_snoc _ _ _ _ _ (g_fam _ _ _ _ _ G) St1).
  assert (T1 := fit_snoc _ _ _ _ (g_fam _ _ _ _ _ G) (g_fit _ _ _ _ _ G) (eq_refl : fits s ONode = true)).
  assert (X1 := run_snoc _ _ _ _ _ (g_run _ _ _ _ _ G) Ex1).
  assert (Hnew : ItemModel.new_node (l_heap l) = (h1, n)).
  { cbn [ItemExec.exec] in Ex1. injection Ex1 as <-. unfold ItemModel.new_node. rewrite Cn. reflexivity. }
  assert (Ln : n = length (l_names l)) by apply (g_count _ _ _ _ _ G).
  assert (Nst : ~ In n (l_stack l)) by (intros I; apply (g_stack _ _ _ _ _ G) in I; unfold n in I; lia).
  assert (K1 : forall m, known s1 m = true <-> m < f_new s1).
  { intros m. unfold known. cbn [f_nodes s1 existsb f_new]. assert (Q := g_known _ _ _ _ _ G m). unfold known in Q. rewrite orb_true_iff, Q, Nat.eqb_eq. unfold n. lia. }
  assert (B1 : forall p c, In (KNode, c) (f_kids s1 p) -> p < c < f_new s1 /\ c < n).
  { intros p c. cbn [f_kids s1 f_new]. unfold set_kids. destruct (Nat.eqb p n); [intros []|]. intros I. apply (g_below _ _ _ _ _ G) in I. unfold n. lia. }
  unfold open_node, peek. rewrite Hnew. cbv beta iota zeta. cbn [lwith_heap l_root l_stack].
  destruct (p_stack d) as [|v vs] eqn:Ev.
  - (* the root *)
    assert (Er : p_root d = None) by (destruct Hr; [congruence|assumption]).
    unfold root_fits in Rf. rewrite Ev, Er in Rf. destruct Rf as (Rl & Zn). assert (El : l_stack l = []) by (inversion Sp; reflexivity).
    rewrite Rl, El. cbn [bind]. eexists _, n. split; [reflexivity|]. split; [reflexivity|].
    exists (ops ++ [ONode]), s1, ch1.
    split; try (destruct G; assumption); cbn [lwith_heap lwith_stack lwith_root lwith_node l_heap l_names l_conts l_root l_stack l_node l_preserve l_header l_encoding l_standalone l_pis with_stack p_root p_stack p_preserve p_header p_encoding p_standalone p_pis]; try assumption.
    + rewrite app_length. cbn [length f_new s1]. lia.
    + intros p c I. apply (proj1 (B1 p c I)).
    + intros m L. left. cbn [f_new s1] in L. f_equal. unfold n in *. lia.
    + constructor; [intros []|constructor].
    + intros m [<-|[]]. cbn [f_new s1]. lia.
    + econstructor; [rewrite Ln; apply nth_new| | |constructor].
      * rewrite app_nil_r. cbn [f_kids s1]. unfold set_kids. rewrite Nat.eqb_refl. reflexivity.
      * constructor.
    + unfold root_fits. cbn. split; [exact Er|]. exists n, []. split; reflexivity.
    + reflexivity.
  - (* a child *)
    unfold root_fits in Rf. rewrite Ev in Rf. destruct Rf as (Er & r & rest & Rl & El).
    inversion Sp as [|p stk x a its vs' cs tail En Ek Ec Sp' E1 Ep]; subst v vs' tail. rewrite <- E1 in *. rewrite Rl. cbn [hd_error bind].
    assert (Kp : p < n) by (apply (g_stack _ _ _ _ _ G); rewrite <- E1; left; reflexivity).
    set (c := (KNode, n) : child).
    set (s2 := Fam (S n) (n :: f_nodes s) (set_kids (f_kids s1) p (f_kids s1 p ++ [c]))).
    assert (St2 : step_fam s1 (OChild p c) = Some s2).
    { cbn [step_fam]. assert (known s1 p = true) as -> by (apply K1; cbn; lia). unfold may_hold, c. cbn [fst snd]. unfold alone.
      assert (known s1 n = true) as -> by (apply K1; cbn; lia). rewrite (parent_none s1 n) by (intros q m I; apply (proj2 (B1 q m I))). reflexivity. }
    destruct (ItemProofs7.exec_step _ _ _ _ _ R1 St2 eq_refl) as (h2 & ch2 & Ex2 & R2).
    assert (Ex2' : ItemModel.node_set_child h1 p n = Ok h2) by exact Ex2.
    cbn [lwith_heap l_heap]. rewrite Ex2'. cbn [bind]. eexists _, n. split; [reflexivity|]. split; [reflexivity|].
    exists ((ops ++ [ONode]) ++ [OChild p c]), s2, ch2.
    assert (Hk : forall m, m < n -> m <> p -> f_kids s2 m = f_kids s m).
    { intros m L N. cbn [f_kids s2 s1]. unfold set_kids. destruct (Nat.eqb_spec m p); [contradiction|]. destruct (Nat.eqb_spec m n); [lia|reflexivity]. }
    assert (Kk : f_kids s2 p = f_kids s p ++ [c]).
    { cbn [f_kids s2 s1]. unfold set_kids. rewrite Nat.eqb_refl. destruct (Nat.eqb_spec p n); [lia|reflexivity]. }
    match goal with |- good ?L _ _ _ _ => set (l2 := L) end.
    assert (Hn : forall m, okay l s m -> okay l2 s2 m /\ f_kids s2 m = f_kids s m /\ (forall v, nth_error (l_names l) m = Some v -> nth_error (l_names l2) m = Some v)).
    { intros m [L N]. split; [split; [cbn; unfold n; lia|]|split].
      - cbn. intros [I|I]; [unfold n in I; lia|]. apply N. rewrite <- E1. exact I.
      - apply Hk; [exact L|]. intros ->. apply N. rewrite <- E1. left. reflexivity.
      - intros v. apply nth_old. }
    assert (Hc : forall dd v, nth_error (l_conts l) dd = Some v -> nth_error (l_conts l2) dd = Some v) by (cbn; auto).
    split; try (destruct G; assumption).
    + eapply run_fam_snoc; [exact F1|exact St2].
    + eapply fit_snoc; [exact F1|exact T1|reflexivity].
    + eapply run_snoc; [exact X1|exact Ex2].
    + cbn. rewrite app_length. cbn. lia.
    + intros q m. destruct (Nat.eq_dec q p) as [->|N].
      * rewrite Kk, in_app_iff. cbn [f_new s2]. intros [I|[I|[]]]; [apply (g_below _ _ _ _ _ G) in I; unfold n; lia|]. injection I as <-. cbn. lia.
      * cbn [f_kids s2 f_new]. unfold set_kids at 1. destruct (Nat.eqb_spec q p); [contradiction|]. intros I. apply B1 in I. cbn in I. lia.
    + intros m L. cbn [f_new s2] in L. destruct (Nat.eq_dec m n) as [->|N].
      * right. exists p. rewrite Kk. apply in_or_app. right. left. reflexivity.
      * destruct (g_all _ _ _ _ _ G m) as [E|(q & I)]; [unfold n in *; lia|left; exact E|right; exists q].
        destruct (Nat.eq_dec q p) as [->|]; [rewrite Kk; apply in_or_app; left; exact I|]. rewrite Hk; [exact I| |assumption]. apply (g_below _ _ _ _ _ G) in I. unfold n. lia.
    + cbn. constructor; [exact Nst|rewrite E1; apply (g_nodup _ _ _ _ _ G)].
    + cbn [l2 lwith_heap lwith_stack lwith_root lwith_node l_stack f_new s2]. intros m [<-|I]; [lia|]. rewrite E1 in I. apply (g_stack _ _ _ _ _ G) in I. unfold n. lia.
    + cbn [l2 lwith_heap lwith_stack lwith_root lwith_node l_stack with_stack p_stack]. econstructor; [cbn; rewrite Ln; apply nth_new| | |].
      * rewrite app_nil_r. cbn [f_kids s2 s1]. unfold set_kids. destruct (Nat.eqb_spec n p); [lia|]. rewrite Nat.eqb_refl. reflexivity.
      * constructor.
      * econstructor; [apply nth_old; exact En|rewrite Kk, Ek, app_nil_r; reflexivity|exact (proj2 (closed_mono _ _ _ _ _ _ _ _ Hn Hc) _ _ Ec)|].
        apply (spine_mono _ _ _ _ _ _ _ _ Hn Hc); [|exact Sp'].
        assert (Nd := g_nodup _ _ _ _ _ G). rewrite <- E1 in Nd. inversion Nd as [|? ? Np _]; subst.
        intros m I. split; [|intros v; apply nth_old]. apply Hk; [|intros ->; contradiction]. apply (g_stack _ _ _ _ _ G). rewrite <- E1. right. exact I.
    + unfold root_fits. cbn. split; [exact Er|]. exists r, (n :: rest). split; [exact Rl|]. cbn. rewrite El. reflexivity.
    + reflexivity.
Qed.

(** attributes of the node on top *)
Lemma set_attrs_same l n a x a0 : nth_error l n = Some (x, a0) -> nth_error (set_attrs l n a) n = Some (x, a).
Proof. revert n. induction l as [|[y b] l IH]; intros [|n] E; cbn in *; try discriminate; [injection E as -> ->; reflexivity|auto]. Qed.
Lemma set_attrs_other l n a m : m <> n -> nth_error (set_attrs l n a) m = nth_error l m.
Proof. revert n m. induction l as [|[y b] l IH]; intros [|n] [|m] N; cbn; try reflexivity; try contradiction. apply IH. lia. Qed.
Lemma set_attrs_length l n a : length (set_attrs l n a) = length l.
Proof. revert n. induction l as [|[y b] l IH]; intros [|n]; cbn; auto. Qed.

Lemma inv_attrs l d n x a0 its vs a : inv l d -> p_stack d = Node x a0 its :: vs -> peek l = Some n ->
  attrs_of l n = Ok a0 /\ inv (put_attrs l n a) (with_stack d (Node x a its :: vs)).
Proof.
  intros (ops & s & ch & G) Ev P. assert (Sp := g_spine _ _ _ _ _ G). rewrite Ev in Sp.
  inversion Sp as [|p stk ? ? ? ? cs tail En Ek Ec Sp' E1 Ep]; subst. unfold peek in P. rewrite <- E1 in P. injection P as ->.
  split; [unfold attrs_of; rewrite En; reflexivity|].
  exists ops, s, ch.
  assert (Nd := g_nodup _ _ _ _ _ G). rewrite <- E1 in Nd. inversion Nd as [|? ? Np _]; subst.
  assert (Hn : forall m, okay l s m -> okay (put_attrs l n a) s m /\ f_kids s m = f_kids s m /\ (forall v, nth_error (l_names l) m = Some v -> nth_error (l_names (put_attrs l n a)) m = Some v)).
  { intros m [L N]. split; [split; [exact L|exact N]|]. split; [reflexivity|]. intros v E. cbn. rewrite set_attrs_other; [exact E|]. intros ->. apply N. rewrite <- E1. left. reflexivity. }
  assert (Hc : forall dd v, nth_error (l_conts l) dd = Some v -> nth_error (l_conts (put_attrs l n a)) dd = Some v) by (cbn; auto).
  split; try (destruct G; assumption).
  - cbn. rewrite set_attrs_length. apply (g_count _ _ _ _ _ G).
  - cbn [put_attrs lwith_heap l_stack with_stack p_stack]. rewrite <- E1. econstructor; [cbn; eapply set_attrs_same; exact En|exact Ek|exact (proj2 (closed_mono _ _ _ _ _ _ _ _ Hn Hc) _ _ Ec)|].
    apply (spine_mono _ _ _ _ _ _ _ _ Hn Hc); [|exact Sp']. intros m I. split; [reflexivity|]. intros v E. cbn. rewrite set_attrs_other; [exact E|]. intros ->. contradiction.
  - assert (Rf := g_root _ _ _ _ _ G). unfold root_fits in *. rewrite Ev in Rf. exact Rf.
Qed.

(** an element is finished *)
Lemma inv_drop l d v : inv l (with_stack d (v :: p_stack d)) -> inv (drop_node l) (add_node d v).
Proof.
  intros (ops & s & ch & G). assert (Sp := g_spine _ _ _ _ _ G). assert (Rf := g_root _ _ _ _ _ G). cbn [with_stack p_stack] in Sp.
  inversion Sp as [|n stk x a its vs cs tail En Ek Ec Sp' E1 Ep]; subst. rewrite app_nil_r in Ek.
  assert (Nd := g_nodup _ _ _ _ _ G). rewrite <- E1 in Nd. inversion Nd as [|? ? Np Nd']; subst.
  assert (Es : l_stack (drop_node l) = stk) by (cbn; rewrite <- E1; reflexivity).
  exists ops, s, ch.
  assert (Hn : forall m, okay l s m -> okay (drop_node l) s m /\ f_kids s m = f_kids s m /\ (forall v, nth_error (l_names l) m = Some v -> nth_error (l_names (drop_node l)) m = Some v)).
  { intros m [L N]. split; [split; [exact L|]|auto]. rewrite Es. intros I. apply N. rewrite <- E1. right. exact I. }
  assert (Hc : forall dd v, nth_error (l_conts l) dd = Some v -> nth_error (l_conts (drop_node l)) dd = Some v) by (cbn; auto).
  assert (Cl : closed (f_kids s) (l_names (drop_node l)) (l_conts (drop_node l)) (okay (drop_node l) s) n (Node x a its)).
  { constructor; [split; [apply (g_stack _ _ _ _ _ G); rewrite <- E1; left; reflexivity|rewrite Es; exact Np]|exact En|]. exact (proj2 (closed_mono _ _ _ _ _ _ _ _ Hn Hc) _ _ Ec). }
  unfold root_fits in Rf. cbn [with_stack p_stack p_root] in Rf. destruct Rf as (Er & r & rest & Rl & El).
  unfold add_node. destruct (p_stack d) as [|w ws] eqn:Ev.
  - assert (Z0 : stk = []) by (inversion Sp'; reflexivity). rewrite Z0 in *. split; try (destruct G; assumption).
    + rewrite Es. constructor.
    + rewrite Es. intros m [].
    + rewrite Es. cbn [with_root p_stack]. rewrite Ev. constructor.
    + unfold root_fits. cbn [with_root p_stack p_root]. rewrite Ev. exists n. split; [|exact Cl]. cbn. rewrite Rl. f_equal. rewrite <- E1 in El. destruct rest as [|? rest]; [injection El as ->; reflexivity|]. destruct rest; discriminate El.
    + cbn [drop_node lwith_node lwith_stack peek l_stack l_node]. rewrite <- E1. reflexivity.
  - unfold add_item. rewrite Ev. destruct w as [y b its']. cbn [add_to].
    inversion Sp' as [|p stk' ? ? ? ? cs' ? En' Ek' Ec' Sp'' E1' Ep'].
    split; try (destruct G; assumption).
    + rewrite Es. exact Nd'.
    + rewrite Es. intros m I. apply (g_stack _ _ _ _ _ G). rewrite <- E1. right. exact I.
    + rewrite Es, <- E1'. cbn [with_stack p_stack]. econstructor; [exact En'|rewrite app_nil_r; exact Ek'| |].
      * apply closed_items_app; [exact (proj2 (closed_mono _ _ _ _ _ _ _ _ Hn Hc) _ _ Ec')|]. constructor; [exact Cl|constructor].
      * apply (spine_mono _ _ _ _ _ _ _ _ Hn Hc); [|exact Sp'']. auto.
    + unfold root_fits. cbn [with_stack p_stack p_root]. split; [exact Er|]. rewrite Es. cbn. exists r. rewrite <- E1 in El. destruct rest as [|m rest]; [cbn in El; injection El as <- Q; rewrite <- E1' in Q; discriminate Q|].
      injection El as <- El. exists rest. split; [exact Rl|exact El].
    + cbn [drop_node lwith_node lwith_stack peek l_stack l_node]. reflexivity.
Qed.

Ltac field := intros (ops & s & ch & G); exists ops, s, ch; destruct G; split; try assumption; cbn; congruence.
Lemma inv_preserve l d b : inv l d -> inv (lwith_preserve l b) (with_preserve d b).
Proof. field. Qed.
Lemma inv_header l d : inv l d -> inv (lwith_header l) (with_header d).
Proof. field. Qed.
Lemma inv_encoding l d e : inv l d -> inv (lwith_encoding l e) (with_encoding d e).
Proof. field. Qed.
Lemma inv_standalone l d e : inv l d -> inv (lwith_standalone l e) (with_standalone d e).
Proof. field. Qed.
Lemma inv_fields l d : inv l d -> l_preserve l = p_preserve d /\ l_header l = p_header d /\ l_encoding l = p_encoding d /\ l_standalone l = p_standalone d /\ l_pis l = p_pis d /\ l_node l = peek l.
Proof. intros (ops & s & ch & G). destruct G. repeat split; assumption. Qed.
Lemma inv_top l d v vs : inv l d -> p_stack d = v :: vs -> exists n, peek l = Some n /\ nth_error (l_names l) n = Some (n_name v, n_attrs v).
Proof. intros (ops & s & ch & G) E. assert (Sp := g_spine _ _ _ _ _ G). rewrite E in Sp. inversion Sp as [|n stk x a its ? ? ? En ? ? ? E1]; subst. exists n. unfold peek. rewrite <- E1. split; [reflexivity|exact En]. Qed.
Lemma inv_bottom l d : inv l d -> p_stack d = [] -> l_stack l = [].
Proof. intros (ops & s & ch & G) E. assert (Sp := g_spine _ _ _ _ _ G). rewrite E in Sp. inversion Sp. reflexivity. Qed.
