(** The answers about a DTD. *)
From Verif Require Import Prelude StrSpec XmlSpec DtdModel DtdSpec DtdProofs DtdDocModel DtdDocSpec DtdDocProofs4 LoadModel LoadSpec LoadProofs LoadProofs4 LoadProofs5 LoadProofs6 LoadProofs7 LoadProofs8 LoadProofs9 LoadProofs10 AskModel AskSpec.
Open Scope nat_scope.
Open Scope list_scope.

(** ** Content *)
Lemma node_at ty t ps i p : nth_error ps i = Some p -> item_list_get_node (Some (Items ty t ps)) (Z.of_nat i) = Some p.
Proof.
  intros E. unfold item_list_get_node, item_list_count. cbn [i_nodes]. assert (L : i < length ps) by (apply nth_error_Some; congruence).
  rewrite (proj2 (Z.leb_le 0 (Z.of_nat i))) by lia. rewrite (proj2 (Z.ltb_lt _ _)) by lia. cbn [negb]. rewrite Nat2Z.id. exact E.
Qed.
Lemma no_node ty t ps z : (z < 0 \/ Z.of_nat (length ps) <= z)%Z -> item_list_get_node (Some (Items ty t ps)) z = None.
Proof.
  intros L. unfold item_list_get_node, item_list_count. cbn [i_nodes]. destruct (Z.leb_spec 0 z); [|reflexivity]. destruct (Z.ltb_spec z (Z.of_nat (length ps))); [lia|reflexivity].
Qed.
Lemma looks_self : forall p, node_looks (Some p) p.
Proof.
  fix IH 1. intros [x t|ty t ps]; [constructor; reflexivity|]. constructor; [reflexivity|reflexivity|]. cbn [item_node_list].
  constructor; [reflexivity|reflexivity|reflexivity| |apply no_node].
  intros i p E. rewrite (node_at ty t ps i p E). clear - IH E. revert i E. induction ps as [|q ps IHps]; intros i E; [destruct i; discriminate|].
  destruct i as [|i]; cbn [nth_error] in E; [injection E as <-; apply IH|exact (IHps i E)].
Qed.
Lemma looks_top p : not_leaf p = true -> looks (items_of p) p.
Proof. destruct p as [|ty t ps]; [discriminate|]. intros _. pose proof (looks_self (Group ty t ps)) as H. inversion H; subst. assumption. Qed.
(** two contents that look the same are the same *)
Lemma looks_one : forall p n q, node_looks n p -> node_looks n q -> p = q.
Proof.
  fix IH 1. intros [x t|ty t ps] n q A B.
  - inversion A; subst. inversion B; subst; congruence.
  - assert (exists qs ty' t', q = Group ty' t' qs /\ looks (item_node_list n) (Group ty' t' qs) /\ item_node_repeat n = t') as (qs & ty' & t' & -> & B3 & Bt).
    { inversion B; subst; [inversion A; subst; congruence|]. do 3 eexists. split; [reflexivity|]. split; [assumption|reflexivity]. }
    assert (A3 : looks (item_node_list n) (Group ty t ps) /\ item_node_repeat n = t) by (inversion A; subst; auto). destruct A3 as [A3 At]. rewrite At in Bt. subst t'.
    assert (C : item_list_count (item_node_list n) = Z.of_nat (length ps) /\ item_list_type (item_node_list n) = Some ty /\
      forall i p, nth_error ps i = Some p -> node_looks (item_list_get_node (item_node_list n) (Z.of_nat i)) p) by (inversion A3; subst; auto).
    assert (D : item_list_count (item_node_list n) = Z.of_nat (length qs) /\ item_list_type (item_node_list n) = Some ty' /\
      forall i p, nth_error qs i = Some p -> node_looks (item_list_get_node (item_node_list n) (Z.of_nat i)) p) by (inversion B3; subst; auto).
    destruct C as (C1 & C2 & C4), D as (D1 & D2 & D4).
    rewrite C2 in D2. injection D2 as ->. f_equal. assert (L : length ps = length qs) by lia. clear - IH C4 D4 L. revert C4 D4.
    set (g := fun i => item_list_get_node (item_node_list n) (Z.of_nat i)). intros C4 D4.
    assert (C5 : forall i p, nth_error ps i = Some p -> node_looks (g i) p) by exact C4. assert (D5 : forall i p, nth_error qs i = Some p -> node_looks (g i) p) by exact D4.
    clearbody g. clear C4 D4. rename C5 into C4, D5 into D4. revert g qs C4 D4 L.
    induction ps as [|p ps IHps]; intros g [|q qs] C4 D4 L; try discriminate; [reflexivity|]. f_equal.
    + apply (IH p (g 0) q); [exact (C4 0 p eq_refl)|exact (D4 0 q eq_refl)].
    + apply (IHps (fun i => g (S i))); [intros i r E; exact (C4 (S i) r E)|intros i r E; exact (D4 (S i) r E)|injection L as L; exact L].
Qed.
Lemma looks_same l p q : looks l p -> looks l q -> p = q.
Proof.
  intros A B. destruct l as [[ty t ps]|].
  - apply (looks_one p (Some (Group ty t ps)) q).
    + inversion A; subst. constructor; [reflexivity|reflexivity|exact A].
    + inversion B; subst. constructor; [reflexivity|reflexivity|exact B].
  - inversion A; subst. discriminate.
Qed.

(** ** Lookups *)
Lemma find_read ds es x c : Forall2 el_read ds es -> NoDup (map fst ds) -> In (x, c) ds -> exists e, find (fun e => bytes_eqb (el_name e) x) es = Some e /\ el_read (x, c) e.
Proof.
  intros F. induction F as [|[y c0] e ds es R F IH]; intros N J; [destruct J|]. cbn [map fst] in N. inversion N as [|? ? N1 N2]; subst. cbn [find].
  destruct (bytes_eqb (el_name e) x) eqn:E.
  - exists e. split; [reflexivity|]. apply bytes_eqb_eq in E. pose proof R as (_ & E' & _). cbn [fst] in E'. destruct J as [J|J]; [injection J as -> ->; exact R|].
    exfalso. apply N1. rewrite <- E', E. apply in_map_iff. exists (x, c). auto.
  - destruct J as [J|J]; [|exact (IH N2 J)]. injection J as -> ->. destruct R as (_ & E' & _). cbn [fst] in E'. rewrite E', bytes_eqb_refl in E. discriminate.
Qed.
Lemma find_other ds es x : Forall2 el_read ds es -> ~ In x (map fst ds) -> find (fun e => bytes_eqb (el_name e) x) es = None.
Proof.
  intros F N. destruct (find (fun e => bytes_eqb (el_name e) x) es) as [e|] eqn:E; [|reflexivity]. apply find_some in E as [J E]. apply bytes_eqb_eq in E.
  destruct N. rewrite <- (el_names _ _ F), <- E. apply in_map. exact J.
Qed.
Lemma read_told d x c e : dtd_get_element d (Some x) = Some e -> el_read (x, c) e -> (forall p, c = CKids p -> not_leaf p = true) -> told d x c.
Proof.
  intros E (_ & E1 & R & _) K. unfold told. rewrite E. cbn [fst snd] in *. split; [cbn [element_name option_map]; rewrite E1; reflexivity|].
  unfold element_type, item_list, option_map. destruct c as [| | |xs|p]; cbn [content_read] in R.
  - destruct R as [-> ->]. auto.
  - destruct R as [-> ->]. auto.
  - destruct R as [-> (t & ->)]. split; [reflexivity|]. exists t. apply looks_top. reflexivity.
  - destruct R as [-> ->]. split; [reflexivity|]. apply looks_top. reflexivity.
  - destruct R as [-> ->]. split; [reflexivity|]. intros X. cbn [content_part]. rewrite (exact_kept _ X). apply looks_top, K, eq_refl.
Qed.

(** ** From the text *)
Lemma load_read text ds : dtd_text text ds -> declared_well ds ->
  exists n, forall fuel, n <= fuel -> exists d ents, dtd_parse fuel text = Ok (Some (d, ents)) /\ Forall2 el_read (elements_of ds) (d_elements d) /\ holds_atts ds (d_attrs d) /\
    match d_top d with None => d_elements d = [] | Some r => In r (d_elements d) /\ forall e, In e (d_elements d) -> ~ mentions e r end.
Proof.
  intros D [W1 W2 W3 (rank & W4)]. destruct (dtd_read text ds D [] load_new holding_new W1 W2) as (n & l & H & E). cbn [app] in H.
  assert (Tk : forall e, In e (l_elements l) -> is_tok (el_name e)).
  { intros e Ie. destruct (forall2_in _ _ _ e (h_els _ _ H) Ie) as (d & _ & T & -> & _). exact T. }
  assert (Ro : exists m, forall fuel, (m <= fuel)%nat ->
            exists root, match l_elements l with [] => Ok None | els => r <- new_root fuel fuel els ;; Ok (Some r) end = Ok root /\
              match root with None => l_elements l = [] | Some r => In r (l_elements l) /\ forall e, In e (l_elements l) -> ~ mentions e r end).
  { destruct (l_elements l) as [|e0 es] eqn:Els.
    - exists 0%nat. intros fuel _. exists None. auto.
    - destruct (new_root_ends (e0 :: es)) as (m & R); [discriminate| |].
      { exists (fun e => rank (el_name e)). rewrite <- Els in *. intros e f Ie If M. destruct (forall2_in _ _ _ e (h_els _ _ H) Ie) as ([x c] & I1 & R).
        pose proof (proj1 (read_mentions (x, c) e f R (Tk f If)) M) as [M' _]. destruct R as (_ & -> & _). eapply W4; eassumption. }
      exists m. intros fuel L. destruct (R fuel fuel L L) as (r & E1 & E2 & E3). rewrite E1. exists (Some r). auto. }
  destruct Ro as (m & Ro). exists (n + m)%nat. intros fuel L. destruct (Ro fuel ltac:(lia)) as (root & Er & Hr).
  exists (Dtd (l_elements l) (l_attrs l) root (l_id l) (l_idref l)), (l_entities l). split.
  - rewrite parse_text, E by lia. unfold finish. rewrite Er. cbn [bind]. destruct (l_id l) eqn:Id; [reflexivity|]. destruct (l_idref l) eqn:Ir; [|reflexivity].
    exfalso. assert (some_att ds is_id_type) as Q by (apply W3, (h_idref _ _ H), Ir). apply (h_id _ _ H) in Q. congruence.
  - split; [exact (h_els _ _ H)|]. split; [exact (h_atts _ _ H)|exact Hr].
Qed.
Lemma content_told text ds : dtd_text text ds -> declared_well ds ->
  exists n, forall fuel, n <= fuel -> exists d ents, dtd_parse fuel text = Ok (Some (d, ents)) /\
    (forall x c, In (x, c) (elements_of ds) -> told d x c) /\ (forall x, ~ In x (map fst (elements_of ds)) -> dtd_get_element d (Some x) = None).
Proof.
  intros D W. destruct (load_read text ds D W) as (n & H). exists n. intros fuel L. destruct (H fuel L) as (d & ents & E & F & _). exists d, ents. split; [exact E|]. split.
  - intros x c J. destruct (find_read _ _ x c F (dw_elements _ W) J) as (e & Fe & R). apply (read_told d x c e Fe R). intros p ->. eapply kids_not_leaf; eassumption.
  - intros x N. exact (find_other _ _ x F N).
Qed.

(** ** Top level *)
Definition enough (l : list el_decl) : nat := list_sum (map (fun e => match el_list e with Some p => psize p | None => 0 end) l).
Lemma enough_fits l pfuel : enough l <= pfuel -> forall e, In e l -> DtdDocProofs4.fits pfuel e.
Proof.
  intros L e J p E. unfold enough in L. induction l as [|f l IH]; [destruct J|]. cbn [map] in L. change (match el_list f with Some p => psize p | None => 0 end + list_sum (map (fun e => match el_list e with Some p => psize p | None => 0 end) l) <= pfuel) in L.
  destruct J as [->|J]; [rewrite E in L; lia|apply IH; [lia|exact J]].
Qed.
Lemma toplevel_is pfuel e : forall l, (forall f, In f l -> DtdDocProofs4.fits pfuel f) -> exists b, toplevel_loop pfuel l e = Ok b /\ (b = true <-> forall f, In f l -> ~ mentions f e).
Proof.
  induction l as [|f l IH]; intros F; [exists true; split; [reflexivity|]; split; [intros _ f []|reflexivity]|]. cbn [toplevel_loop].
  destruct (is_parent_spec pfuel f e (F f (or_introl eq_refl))) as (b & -> & B). cbn [bind]. destruct b.
  - exists false. split; [reflexivity|]. split; [discriminate|]. intros N. destruct (N f (or_introl eq_refl)). apply B. reflexivity.
  - destruct (IH (fun g J => F g (or_intror J))) as (b & -> & B'). exists b. split; [reflexivity|]. rewrite B'. split; intros N g J.
    + destruct J as [<-|J]; [|exact (N g J)]. intros M. apply B in M. discriminate.
    + apply N. right. exact J.
Qed.
Lemma top_told text ds : dtd_text text ds -> declared_well ds ->
  exists n, forall fuel, n <= fuel -> exists d ents, dtd_parse fuel text = Ok (Some (d, ents)) /\
    exists m, forall pfuel, m <= pfuel ->
      (forall x, In x (map fst (elements_of ds)) -> exists b, is_toplevel pfuel d (dtd_get_element d (Some x)) = Ok b /\ (b = true <-> outermost ds x)) /\
      (elements_of ds <> [] -> exists x, element_name (dtd_get_root d) = Some x /\ In x (map fst (elements_of ds)) /\ is_toplevel pfuel d (dtd_get_root d) = Ok true).
Proof.
  intros D W. destruct (load_read text ds D W) as (n & H). exists n. intros fuel L. destruct (H fuel L) as (d & ents & E & F & _ & Rt). exists d, ents. split; [exact E|].
  exists (enough (d_elements d)). intros pfuel Lp. pose proof (enough_fits _ _ Lp) as Fi. split.
  - intros x J. apply in_map_iff in J as ([x' c] & Ex & J). cbn [fst] in Ex. subst x'. destruct (find_read _ _ x c F (dw_elements _ W) J) as (e & Fe & R). unfold dtd_get_element, get_element. rewrite Fe.
    unfold is_toplevel. destruct (toplevel_is pfuel e (d_elements d) Fi) as (b & -> & B). exists b. split; [reflexivity|]. rewrite B. clear B.
    pose proof R as (T & En & _). cbn [fst] in T, En. rewrite <- En in T. unfold outermost. split.
    + intros N y c' Jy Jc. destruct (forall2_in_l _ _ _ (y, c') F Jy) as (f & If & Rf). apply (N f If). apply (read_mentions _ f e Rf T). cbn [snd]. rewrite En. split; [exact Jc|].
      intros p ->. eapply kids_not_leaf; eassumption.
    + intros N f If M. destruct (forall2_in _ _ _ f F If) as ([y c'] & Jy & Rf). apply (read_mentions _ f e Rf T) in M. destruct M as [M _]. rewrite En in M. exact (N y c' Jy M).
  - intros Ne. unfold dtd_get_root. destruct (d_top d) as [r|].
    + destruct Rt as [Ir Nm]. exists (el_name r). split; [reflexivity|]. split; [rewrite <- (el_names _ _ F); apply in_map; exact Ir|]. cbn [is_toplevel].
      destruct (toplevel_is pfuel r (d_elements d) Fi) as (b & -> & B). f_equal. apply B. exact Nm.
    + rewrite Rt in F. inversion F. congruence.
Qed.

(** ** Attributes *)
Lemma constraints_told text ds : dtd_text text ds -> declared_well ds ->
  exists n, forall fuel, n <= fuel -> exists d ents, dtd_parse fuel text = Ok (Some (d, ents)) /\
    (forall x, listed ds x -> attr_constraints d (Some x) = Ok (Z.of_nat (length (atts_of ds x)))) /\ (forall x, ~ listed ds x -> attr_constraints d (Some x) = UB).
Proof.
  intros D W. destruct (load_read text ds D W) as (n & H). exists n. intros fuel L. destruct (H fuel L) as (d & ents & E & _ & [Nd A] & _). exists d, ents. split; [exact E|].
  unfold attr_constraints, get_attr. split; intros x J.
  - destruct (find (fun p => bytes_eqb (fst p) x) (d_attrs d)) as [[y a]|] eqn:Fd; cbn [option_map snd].
    + apply find_some in Fd as [I1 Ey]. cbn [fst] in Ey. apply bytes_eqb_eq in Ey. subst y. apply A in I1 as [_ ->]. reflexivity.
    + pose proof (find_none _ _ Fd (x, atts_of ds x) (proj2 (A _ _) (conj J eq_refl))) as Q. cbn [fst] in Q. rewrite bytes_eqb_refl in Q. discriminate.
  - destruct (find (fun p => bytes_eqb (fst p) x) (d_attrs d)) as [[y a]|] eqn:Fd; cbn [option_map snd]; [|reflexivity].
    apply find_some in Fd as [I1 Ey]. cbn [fst] in Ey. apply bytes_eqb_eq in Ey. subst y. apply A in I1 as [J' _]. contradiction.
Qed.
Lemma top_answers d e : exists m, forall pfuel, m <= pfuel -> exists b, is_toplevel pfuel d e = Ok b.
Proof.
  exists (enough (d_elements d)). intros pfuel L. destruct e as [e|]; [|exists false; reflexivity]. cbn [is_toplevel].
  destruct (toplevel_is pfuel e (d_elements d) (enough_fits _ _ L)) as (b & B & _). exists b. exact B.
Qed.
