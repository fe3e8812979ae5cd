(** Trees of nodes: what searching, grafting and cutting do to the addresses. *)
From Verif Require Import Prelude PyModel PySpec.
From Coq Require Import Lia Permutation.
Open Scope nat_scope.
Open Scope list_scope.

Section Tree_ind.
  Variable P : tree -> Prop.
  Hypothesis H : forall a d kids, Forall P kids -> P (T a d kids).
  Fixpoint tree_ind' (t : tree) : P t :=
    match t with
    | T a d kids => H a d kids ((fix go (l : list tree) : Forall P l :=
                       match l with [] => Forall_nil P | x :: r => Forall_cons x (tree_ind' x) (go r) end) kids)
    end.
End Tree_ind.

Fixpoint tdocs (t : tree) : list (option nat) := match t with T _ d kids => d :: flat_map tdocs kids end.

Lemma mem_nat_in a l : mem_nat a l = true <-> In a l.
Proof.
  unfold mem_nat. rewrite existsb_exists. split.
  - intros (x & Hx & E). apply Nat.eqb_eq in E. subst. exact Hx.
  - intro Hx. exists a. split; [exact Hx|apply Nat.eqb_refl].
Qed.
Lemma has_addr_in a t : has_addr a t = true <-> In a (addrs t).
Proof. exact (mem_nat_in a (addrs t)). Qed.
Lemma head_in t : In (t_addr t) (addrs t).
Proof. destruct t. left. reflexivity. Qed.
Lemma tdoc_in t : In (t_doc t) (tdocs t).
Proof. destruct t. left. reflexivity. Qed.

Lemma first_some_in {A B} (f : A -> option B) l y : first_some f l = Some y -> exists x, In x l /\ f x = Some y.
Proof.
  induction l as [|x l IH]; cbn [first_some]; [discriminate|]. fold (first_some f l). destruct (f x) as [z|] eqn:E.
  - intro H. injection H as <-. exists x. split; [left; reflexivity|exact E].
  - intro H. destruct (IH H) as (x' & Hx & E'). exists x'. split; [right; exact Hx|exact E'].
Qed.
Lemma first_some_none {A B} (f : A -> option B) l : first_some f l = None -> forall x, In x l -> f x = None.
Proof.
  induction l as [|x l IH]; cbn [first_some]; [contradiction|]. fold (first_some f l). destruct (f x) as [z|] eqn:E; [discriminate|].
  intros H y [<-|Hy]; [exact E|apply IH; assumption].
Qed.
Lemma in_kid a k kids : In k kids -> In a (addrs k) -> In a (flat_map addrs kids).
Proof. intros. apply in_flat_map. eauto. Qed.

Lemma sub_props a t : forall s, sub a t = Some s -> t_addr s = a /\ incl (addrs s) (addrs t) /\ incl (tdocs s) (tdocs t).
Proof.
  induction t as [b d kids IH] using tree_ind'. intros s H. cbn [sub] in H. destruct (Nat.eqb_spec a b) as [E|N].
  - injection H as <-. split; [cbn; congruence|split; apply incl_refl].
  - destruct (first_some_in _ _ _ H) as (k & Hk & E). rewrite Forall_forall in IH. destruct (IH _ Hk _ E) as (E1 & E2 & E3).
    split; [exact E1|]. split; intros x Hx; right; apply in_flat_map; exists k; split; auto.
Qed.
Lemma sub_some a t : In a (addrs t) -> exists s, sub a t = Some s.
Proof.
  induction t as [b d kids IH] using tree_ind'. cbn [addrs sub]. intros H. destruct (Nat.eqb_spec a b) as [E|N]; [eauto|].
  destruct H as [H|H]; [congruence|]. apply in_flat_map in H. destruct H as (k & Hk & Ha). rewrite Forall_forall in IH.
  destruct (IH _ Hk Ha) as (s & Es). destruct (first_some (sub a) kids) as [y|] eqn:E; [eauto|].
  rewrite (first_some_none _ _ E _ Hk) in Es. discriminate.
Qed.
Lemma sub_none a t : ~ In a (addrs t) -> sub a t = None.
Proof. intro N. destruct (sub a t) as [s|] eqn:E; [|reflexivity]. destruct (sub_props _ _ _ E) as (Ea & I & _). exfalso. apply N, I. rewrite <- Ea. apply head_in. Qed.
Lemma sub_root t : sub (t_addr t) t = Some t.
Proof. destruct t. cbn [sub t_addr]. rewrite Nat.eqb_refl. reflexivity. Qed.

Lemma par_props a t : forall p, par a t = Some p -> In (t_addr p) (addrs t) /\ incl (flat_map addrs (t_kids p)) (addrs t) /\ incl (tdocs p) (tdocs t) /\
  In a (flat_map addrs (t_kids t)).
Proof.
  induction t as [b d kids IH] using tree_ind'. intros p H. cbn [par] in H. destruct (existsb (fun k => Nat.eqb a (t_addr k)) kids) eqn:X.
  - injection H as <-. cbn [t_addr t_kids addrs tdocs]. split; [left; reflexivity|]. split; [intros x Hx; right; exact Hx|]. split; [apply incl_refl|].
    apply existsb_exists in X. destruct X as (k & Hk & E). apply Nat.eqb_eq in E. subst a. eapply in_kid; [exact Hk|apply head_in].
  - destruct (first_some_in _ _ _ H) as (k & Hk & E). rewrite Forall_forall in IH. destruct (IH _ Hk _ E) as (E1 & E2 & E3 & E4).
    cbn [t_kids addrs tdocs]. split; [right; eapply in_kid; eassumption|]. split; [intros x Hx; right; eapply in_kid; [exact Hk|auto]|].
    split; [intros x Hx; right; apply in_flat_map; eauto|]. eapply in_kid; [exact Hk|]. destruct k. right. exact E4.
Qed.

Lemma nth_addr_in kids k x : option_map t_addr (nth_error kids k) = Some x -> In x (flat_map addrs kids).
Proof.
  destruct (nth_error kids k) as [t|] eqn:E; [|discriminate]. cbn [option_map]. intro H. injection H as <-.
  eapply in_kid; [eapply nth_error_In; exact E|apply head_in].
Qed.
Lemma kids_incl s : incl (flat_map addrs (t_kids s)) (addrs s).
Proof. destruct s. intros x Hx. right. exact Hx. Qed.
Lemma siblings_in a t : incl (flat_map addrs (siblings a t)) (addrs t).
Proof. unfold siblings. destruct (par a t) as [p|] eqn:E; [exact (proj1 (proj2 (par_props _ _ _ E)))|intros x []]. Qed.
Lemma walk_in v a t b : walk v a t = Some b -> In b (addrs t).
Proof.
  destruct v as [k|k|k| |k]; cbn [walk].
  - destruct (sub a t) as [s|] eqn:E; [|discriminate]. intro H. destruct (sub_props _ _ _ E) as (_ & I & _). apply I, kids_incl. eapply nth_addr_in, H.
  - intro H. apply (siblings_in a t). eapply nth_addr_in, H.
  - destruct (k <? index a (siblings a t)); [|discriminate]. intro H. apply (siblings_in a t). eapply nth_addr_in, H.
  - destruct (par a t) as [p|] eqn:E; [|discriminate]. cbn [option_map]. intro H. injection H as <-. exact (proj1 (par_props _ _ _ E)).
  - destruct (sub a t) as [s|] eqn:E; [|discriminate]. intro H. destruct (sub_props _ _ _ E) as (_ & I & _). apply I, kids_incl. eapply nth_error_In, H.
Qed.

(** ** planting *)
Definition plants (d : option nat) : list shape -> nat -> list tree * nat :=
  fix go (l : list shape) (m : nat) : list tree * nat :=
         match l with
         | [] => ([], m)
         | y :: r => let '(t, m) := plant d y m in let '(ts, m) := go r m in (t :: ts, m)
         end.
Section Shape_ind.
  Variable P : shape -> Prop.
  Hypothesis H : forall kids, Forall P kids -> P (S_ kids).
  Fixpoint shape_ind' (t : shape) : P t :=
    match t with
    | S_ kids => H kids ((fix go (l : list shape) : Forall P l :=
                       match l with [] => Forall_nil P | x :: r => Forall_cons x (shape_ind' x) (go r) end) kids)
    end.
End Shape_ind.
Lemma plant_props d x : forall n t m, plant d x n = (t, m) ->
  t_addr t = n /\ addrs t = seq n (m - n) /\ n < m /\ (forall e, In e (tdocs t) -> e = d) /\ t_doc t = d.
Proof.
  induction x as [l IH] using shape_ind'. intros n t m H. cbn [plant] in H. fold (plants d) in H.
  destruct (plants d l (S n)) as [kids m'] eqn:E. injection H as <- <-.
  assert (X : flat_map addrs kids = seq (S n) (m' - S n) /\ S n <= m' /\ forall e, In e (flat_map tdocs kids) -> e = d).
  { clear - IH E. revert kids m' E. generalize (S n) as k. intros k. revert k.
    induction IH as [|y r Hy F IHr]; intros k kids m' E; cbn [plants] in E; fold (plants d) in E.
    - injection E as <- <-. rewrite Nat.sub_diag. cbn. repeat split; [lia|contradiction].
    - destruct (plant d y k) as [t m1] eqn:E1. destruct (plants d r m1) as [ts m2] eqn:E2. injection E as <- <-.
      destruct (Hy _ _ _ E1) as (_ & A1 & L1 & D1 & _). destruct (IHr _ _ _ E2) as (A2 & L2 & D2). cbn [flat_map]. rewrite A1, A2.
      split; [|split; [lia|]].
      + replace (m2 - k) with ((m1 - k) + (m2 - m1)) by lia. rewrite seq_app. f_equal. f_equal; lia.
      + intros e He. apply in_app_or in He. destruct He; auto. }
  destruct X as (A & L & D). cbn [t_addr addrs tdocs t_doc]. split; [reflexivity|]. split; [|split; [lia|split; [|reflexivity]]].
  - rewrite A. replace (m' - n) with (S (m' - S n)) by lia. reflexivity.
  - intros e [<-|He]; auto.
Qed.

(** ** grafting *)
Lemma graft_same a c t : ~ In a (addrs t) -> graft a c t = t.
Proof.
  induction t as [b d kids IH] using tree_ind'. intro N. cbn [graft]. destruct (Nat.eqb_spec a b) as [->|Nb]; [exfalso; apply N; left; reflexivity|].
  f_equal. rewrite <- (map_id kids) at 2. apply map_ext_in. intros k Hk. rewrite Forall_forall in IH. apply IH; [exact Hk|].
  intro X. apply N. right. eapply in_kid; eassumption.
Qed.
Lemma graft_map_same a c kids : ~ In a (flat_map addrs kids) -> map (graft a c) kids = kids.
Proof. intro N. rewrite <- (map_id kids) at 2. apply map_ext_in. intros k Hk. apply graft_same. intro X. apply N. eapply in_kid; eassumption. Qed.
Lemma set_doc_addrs d c : addrs (set_doc d c) = addrs c.
Proof. destruct c. reflexivity. Qed.
Lemma NoDup_app3 {A} (l1 l2 : list A) : NoDup (l1 ++ l2) -> NoDup l1 /\ NoDup l2 /\ forall x, In x l1 -> In x l2 -> False.
Proof.
  induction l1 as [|y l1 IH]; cbn [app]; intro H; [repeat split; [constructor|exact H|contradiction]|]. inversion H as [|? ? N Nd]; subst.
  destruct (IH Nd) as (H1 & H2 & H3). split; [constructor; [intro; apply N, in_or_app; auto|exact H1]|]. split; [exact H2|].
  intros x [<-|Hx] Hy; [apply N, in_or_app; auto|eauto].
Qed.
Lemma graft_perm a c t : NoDup (addrs t) -> In a (addrs t) -> Permutation (addrs (graft a c t)) (addrs c ++ addrs t).
Proof.
  induction t as [b d kids IH] using tree_ind'. intros Nd Ha. cbn [graft addrs] in *. inversion Nd as [|? ? Nb Nk]; subst.
  destruct (Nat.eqb_spec a b) as [->|N].
  - rewrite graft_map_same by exact Nb. rewrite flat_map_app. cbn [flat_map]. rewrite app_nil_r, set_doc_addrs.
    rewrite (Permutation_app_comm (flat_map addrs kids)). apply (Permutation_middle (addrs c)).
  - destruct Ha as [Ha|Ha]; [congruence|]. rewrite <- (Permutation_middle (addrs c)). apply perm_skip. clear Nd Nb N.
    induction kids as [|k kids IHk]; [contradiction|]. cbn [flat_map map] in *. apply Forall_cons_iff in IH. destruct IH as [IH1 IH2].
    destruct (NoDup_app3 _ _ Nk) as (N1 & N2 & N3). apply in_app_or in Ha. destruct Ha as [Ha|Ha].
    + rewrite (IH1 N1 Ha). rewrite (graft_map_same a c kids) by (intro X; exact (N3 _ Ha X)). rewrite app_assoc. reflexivity.
    + rewrite (graft_same a c k) by (intro X; exact (N3 _ X Ha)). rewrite (IHk IH2 Ha N2). rewrite !app_assoc. apply Permutation_app_tail, Permutation_app_comm.
Qed.
Lemma graft_docs a c t e : In e (tdocs (graft a c t)) -> In e (tdocs t) \/ In e (flat_map tdocs (t_kids c)).
Proof.
  induction t as [b d kids IH] using tree_ind'. cbn [graft tdocs]. rewrite Forall_forall in IH. intros [H|H]; [left; left; exact H|].
  assert (G : In e (flat_map tdocs (map (graft a c) kids)) -> In e (d :: flat_map tdocs kids) \/ In e (flat_map tdocs (t_kids c))).
  { intro X. apply in_flat_map in X. destruct X as (y & Hy & He). apply in_map_iff in Hy. destruct Hy as (k & <- & Hk).
    destruct (IH _ Hk He) as [X|X]; [left; right; apply in_flat_map; eauto|right; exact X]. }
  destruct (Nat.eqb a b); [|auto]. rewrite flat_map_app in H. apply in_app_or in H. destruct H as [H|H]; [auto|].
  cbn [flat_map] in H. rewrite app_nil_r in H. destruct c as [ca cd ck]. cbn [set_doc tdocs t_kids] in H |- *. destruct H as [<-|H]; [left; left; reflexivity|right; exact H].
Qed.
Lemma graft_root a c t : t_addr (graft a c t) = t_addr t /\ t_doc (graft a c t) = t_doc t.
Proof. destruct t. cbn [graft]. split; reflexivity. Qed.

(** ** a sibling behind *)
Lemma follow_same a c t : ~ In a (flat_map addrs (t_kids t)) -> follow a c t = t.
Proof.
  induction t as [b d kids IH] using tree_ind'. cbn [t_kids follow]. intro N. f_equal. rewrite Forall_forall in IH.
  revert N IH. induction kids as [|k kids IHk]; intros N IH; [reflexivity|]. cbn [flat_map] in *.
  rewrite (IH k (or_introl eq_refl)) by (intro X; apply N, in_or_app; left; apply kids_incl; exact X).
  destruct (Nat.eqb_spec a (t_addr k)) as [->|_]; [exfalso; apply N, in_or_app; left; apply head_in|]. cbn [app]. f_equal.
  apply IHk; [intro X; apply N, in_or_app; right; exact X|intros x Hx; apply IH; right; exact Hx].
Qed.
Definition fol a c d (k : tree) : list tree := follow a c k :: (if Nat.eqb a (t_addr k) then [set_doc d c] else []).
Lemma fol_same a c d kids : ~ In a (flat_map addrs kids) -> flat_map (fol a c d) kids = kids.
Proof.
  induction kids as [|k kids IH]; intro N; [reflexivity|]. cbn [flat_map] in *. unfold fol at 1.
  rewrite follow_same by (intro X; apply N, in_or_app; left; apply kids_incl; exact X).
  destruct (Nat.eqb_spec a (t_addr k)) as [->|_]; [exfalso; apply N, in_or_app; left; apply head_in|]. cbn [app]. f_equal.
  apply IH. intro X. apply N, in_or_app; right; exact X.
Qed.
Lemma follow_perm a c t : NoDup (addrs t) -> In a (flat_map addrs (t_kids t)) -> Permutation (addrs (follow a c t)) (addrs c ++ addrs t).
Proof.
  induction t as [b d kids IH] using tree_ind'. intros Nd Ha. cbn [follow addrs t_kids] in *. fold (fol a c d). inversion Nd as [|? ? Nb Nk]; subst.
  rewrite <- (Permutation_middle (addrs c)). apply perm_skip. clear Nd Nb.
  induction kids as [|k kids IHk]; [contradiction|]. cbn [flat_map map] in *. apply Forall_cons_iff in IH. destruct IH as [IH1 IH2].
  destruct (NoDup_app3 _ _ Nk) as (N1 & N2 & N3). rewrite flat_map_app. apply in_app_or in Ha. destruct Ha as [Ha|Ha].
  - rewrite (fol_same a c d kids) by (intro X; exact (N3 _ Ha X)). unfold fol.
    destruct (Nat.eqb_spec a (t_addr k)) as [->|N].
    + rewrite follow_same. { cbn [flat_map]. rewrite app_nil_r, set_doc_addrs. rewrite (Permutation_app_comm (addrs k) (addrs c)). rewrite <- app_assoc. reflexivity. }
      destruct k. cbn [addrs t_addr t_kids] in *. inversion N1; subst. assumption.
    + cbn [flat_map]. rewrite app_nil_r. rewrite (IH1 N1). { rewrite <- app_assoc. reflexivity. }
      destruct k. cbn [addrs t_addr t_kids] in *. destruct Ha as [Ha|Ha]; [congruence|exact Ha].
  - unfold fol at 1. rewrite follow_same by (intro X; apply (N3 a); [apply kids_incl; exact X|exact Ha]).
    destruct (Nat.eqb_spec a (t_addr k)) as [->|N]; [exfalso; exact (N3 _ (head_in k) Ha)|]. cbn [flat_map]. rewrite app_nil_r.
    rewrite (IHk IH2 Ha N2). rewrite !app_assoc. apply Permutation_app_tail, Permutation_app_comm.
Qed.
Lemma follow_docs a c t e : In e (tdocs (follow a c t)) -> In e (tdocs t) \/ In e (flat_map tdocs (t_kids c)).
Proof.
  induction t as [b d kids IH] using tree_ind'. cbn [follow tdocs]. rewrite Forall_forall in IH. intros [H|H]; [left; left; exact H|].
  apply in_flat_map in H. destruct H as (y & Hy & He). apply in_flat_map in Hy. destruct Hy as (k & Hk & Hy). destruct Hy as [<-|Hy].
  - destruct (IH _ Hk He) as [X|X]; [left; right; apply in_flat_map; eauto|right; exact X].
  - destruct (Nat.eqb a (t_addr k)); [|contradiction]. destruct Hy as [<-|[]]. destruct c as [ca cd ck]. cbn [set_doc tdocs t_kids] in He |- *.
    destruct He as [<-|He]; [left; left; reflexivity|right; exact He].
Qed.
Lemma follow_root a c t : t_addr (follow a c t) = t_addr t /\ t_doc (follow a c t) = t_doc t.
Proof. destruct t. split; reflexivity. Qed.

(** ** cutting *)
Definition ct a (k : tree) : list tree := if Nat.eqb a (t_addr k) then [] else [cut a k].
Lemma cut_same a t : ~ In a (flat_map addrs (t_kids t)) -> cut a t = t.
Proof.
  induction t as [b d kids IH] using tree_ind'. cbn [t_kids cut]. intro N. f_equal. rewrite Forall_forall in IH.
  revert N IH. induction kids as [|k kids IHk]; intros N IH; [reflexivity|]. cbn [flat_map] in *.
  destruct (Nat.eqb_spec a (t_addr k)) as [->|_]; [exfalso; apply N, in_or_app; left; apply head_in|].
  rewrite (IH k (or_introl eq_refl)) by (intro X; apply N, in_or_app; left; apply kids_incl; exact X). cbn [app]. f_equal.
  apply IHk; [intro X; apply N, in_or_app; right; exact X|intros x Hx; apply IH; right; exact Hx].
Qed.
Lemma ct_same a kids : ~ In a (flat_map addrs kids) -> flat_map (ct a) kids = kids.
Proof.
  induction kids as [|k kids IH]; intro N; [reflexivity|]. cbn [flat_map] in *. unfold ct at 1.
  destruct (Nat.eqb_spec a (t_addr k)) as [->|_]; [exfalso; apply N, in_or_app; left; apply head_in|].
  rewrite cut_same by (intro X; apply N, in_or_app; left; apply kids_incl; exact X). cbn [app]. f_equal.
  apply IH. intro X. apply N, in_or_app; right; exact X.
Qed.
Lemma first_some_app {A B} (f : A -> option B) l1 l2 : (forall x, In x l1 -> f x = None) -> first_some f (l1 ++ l2) = first_some f l2.
Proof. induction l1 as [|x l1 IH]; intro N; [reflexivity|]. cbn [app first_some]. rewrite (N x (or_introl eq_refl)). fold (first_some f (l1 ++ l2)). apply IH. intros y Hy. apply N. right. exact Hy. Qed.
Lemma cut_perm a t : NoDup (addrs t) -> In a (flat_map addrs (t_kids t)) -> forall s, sub a t = Some s -> Permutation (addrs t) (addrs s ++ addrs (cut a t)).
Proof.
  induction t as [b d kids IH] using tree_ind'. intros Nd Ha s Hs. cbn [cut addrs t_kids sub] in *. fold (ct a). inversion Nd as [|? ? Nb Nk]; subst.
  destruct (Nat.eqb_spec a b) as [->|N]; [contradiction|]. rewrite <- (Permutation_middle (addrs s)). apply perm_skip. clear Nd Nb N.
  induction kids as [|k kids IHk]; [contradiction|]. cbn [flat_map first_some] in *. fold (first_some (sub a) kids) in Hs. apply Forall_cons_iff in IH. destruct IH as [IH1 IH2].
  destruct (NoDup_app3 _ _ Nk) as (N1 & N2 & N3). rewrite flat_map_app. apply in_app_or in Ha. destruct Ha as [Ha|Ha].
  - rewrite (ct_same a kids) by (intro X; exact (N3 _ Ha X)). destruct (sub_some _ _ Ha) as (s' & Es). rewrite Es in Hs. injection Hs as <-.
    unfold ct. destruct (Nat.eqb_spec a (t_addr k)) as [->|N].
    + rewrite sub_root in Es. injection Es as <-. reflexivity.
    + cbn [flat_map]. rewrite app_nil_r. rewrite app_assoc. apply Permutation_app_tail. apply IH1; [exact N1| |exact Es].
      destruct k. cbn [addrs t_addr t_kids] in *. destruct Ha as [Ha|Ha]; [congruence|exact Ha].
  - rewrite (sub_none a k) in Hs by (intro X; exact (N3 _ X Ha)). unfold ct at 1. destruct (Nat.eqb_spec a (t_addr k)) as [->|N]; [exfalso; exact (N3 _ (head_in k) Ha)|].
    rewrite cut_same by (intro X; apply (N3 a); [apply kids_incl; exact X|exact Ha]). cbn [flat_map]. rewrite app_nil_r.
    rewrite (IHk IH2 Ha Hs N2) at 1. rewrite !app_assoc. apply Permutation_app_tail, Permutation_app_comm.
Qed.
Lemma cut_docs a t : incl (tdocs (cut a t)) (tdocs t).
Proof.
  induction t as [b d kids IH] using tree_ind'. cbn [cut tdocs]. rewrite Forall_forall in IH. intros e [H|H]; [left; exact H|]. right.
  apply in_flat_map in H. destruct H as (y & Hy & He). apply in_flat_map in Hy. destruct Hy as (k & Hk & Hy).
  destruct (Nat.eqb a (t_addr k)); [contradiction|]. destruct Hy as [<-|[]]. apply in_flat_map. exists k. split; [exact Hk|]. apply IH; assumption.
Qed.
Lemma cut_root a t : t_addr (cut a t) = t_addr t /\ t_doc (cut a t) = t_doc t.
Proof. destruct t. split; reflexivity. Qed.

(** ** releasing *)
Lemma filter_out_perm a l r : NoDup l -> Permutation l (a :: r) -> Permutation (filter (fun x => negb (Nat.eqb a x)) l) r.
Proof.
  intros Nd P. assert (Nd' : NoDup (a :: r)) by (eapply Permutation_NoDup; eassumption). inversion Nd' as [|? ? Na Nr]; subst.
  apply NoDup_Permutation.
  - apply NoDup_filter. exact Nd.
  - exact Nr.
  - intro x. rewrite filter_In. split.
    + intros [Hx Hn]. apply (Permutation_in _ P) in Hx. destruct Hx as [<-|Hx]; [rewrite Nat.eqb_refl in Hn; discriminate|exact Hx].
    + intro Hx. split; [apply (Permutation_in _ (Permutation_sym P)); right; exact Hx|]. apply negb_true_iff, Nat.eqb_neq. intro E. subst. contradiction.
Qed.
Lemma release_ok l : forall live r, NoDup live -> Permutation live (l ++ r) -> exists live', release l live = Ok live' /\ Permutation live' r.
Proof.
  induction l as [|a l IH]; intros live r Nd P; cbn [release].
  - exists live. split; [reflexivity|exact P].
  - rewrite (proj2 (mem_nat_in a live)) by (apply (Permutation_in _ (Permutation_sym P)); left; reflexivity).
    apply IH; [apply NoDup_filter; exact Nd|]. apply filter_out_perm; assumption.
Qed.
