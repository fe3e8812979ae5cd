(** Validation of a tree, and comparison and search after it. *)
From Coq Require Import Permutation.
From Verif Require Import Prelude HashModel HashSpec HashExec HashProofs HashStrProofs StrModel StrSpec StrProofs EscProofs AttrModel AttrSpec AttrExec AttrProofs
  TreeModel XmlSpec DumpProofs EqModel EqSpec EqProofs EqProofs2 EqProofs3 NsModel NsExec NsSpec NsProofs.
Open Scope nat_scope.
Open Scope list_scope.

Inductive okelem : elem -> xnode -> Prop :=
| OkElem name a childs ats items m : nul_free name -> arep a m -> Forall vgood m -> Permutation m ats ->
    Forall2 okelem childs (elems items) -> okelem (Elem name a None childs) (XNode name ats items).
Lemma elem_of_eq name a l : elem_of (Node name a l) = Elem name a None (flat_map (fun i => match i with INode c => [elem_of c] | _ => [] end) l).
Proof. cbn [elem_of]. f_equal. induction l as [|i l IH]; [reflexivity|]. destruct i; cbn [flat_map app]; rewrite <- IH; reflexivity. Qed.
Lemma regular_okelem :
  (forall n x, shows n x -> regular n -> okelem (elem_of n) x) /\
  (forall l m, shows_items l m -> regular_items l -> Forall2 okelem (flat_map (fun i => match i with INode c => [elem_of c] | _ => [] end) l) (elems m)).
Proof.
  apply shows_both; try (intros; cbn [flat_map app elems]; match goal with H : _ -> ?G |- ?G => apply H end; match goal with H : regular_items (_ :: _) |- _ => inversion H; assumption end).
  - intros name a items ats l xs E P S IH R. inversion R as [? ? ? R1 R2 R3]; subst. rewrite elem_of_eq. destruct (made_arep a R2) as (m & Rm & G).
    apply OkElem with m; [exact R1|exact Rm|exact G| |apply IH; exact R3]. eapply perm_trans; [|exact P]. apply Permutation_sym. eapply foreach_perm; eassumption.
  - intro R. constructor.
  - intros n x l m S IH Sl IHl R. inversion R; subst. cbn [flat_map app elems]. constructor; [apply IH; assumption|apply IHl; assumption].
Qed.
Lemma attr_pairs_ok a m : arep a m -> exists l, (if has_attributes a then attr_pairs a else Ok []) = Ok l /\ Permutation l m.
Proof.
  intro R. destruct (enumerate_ok a m R) as (o & P & _ & c & C & W). rewrite (has_attributes_ok a m R). destruct m as [|p m].
  - exists []. split; [reflexivity|constructor].
  - exists o. split; [|exact P]. unfold attr_pairs. rewrite C. cbn [bind].
    replace (Z.to_nat (a_num a)) with (length o); [exact W|].
    rewrite (Permutation_length P). pose proof (num_attributes_ok a _ R) as N. destruct R as [l m' H _ _ _|]; cbn [a_num].
    + apply Permutation_length in H. rewrite map_length in H. lia.
    + lia.
Qed.

(** ** what holds of every element *)
Definition allp (P : xnode -> scope -> Prop) (s : scope) (x : xnode) : Prop := forall path y s', at_path s x path y s' -> P y s'.
Lemma allp_unfold P s name ats items : allp P s (XNode name ats items) <-> P (XNode name ats items) (ats :: s) /\ Forall (allp P (ats :: s)) (elems items).
Proof.
  split.
  - intro H. split; [apply (H []); constructor|]. rewrite Forall_forall. intros c I path y s' A. apply In_nth_error in I. destruct I as [i E].
    apply (H (i :: path)). econstructor; eassumption.
  - intros [H1 H2] path y s' A. inversion A as [|? ? ? ? i c p ? ? E B]; subst; [exact H1|]. rewrite Forall_forall in H2.
    apply (H2 c (nth_error_In _ _ E) p y s' B).
Qed.
Definition valid_here (y : xnode) (s : scope) : Prop := name_ok s (xname y) /\ forall a, In a (map fst (xattrs y)) -> is_decl a \/ name_ok s a.
Definition ordinary_here (y : xnode) (s : scope) : Prop :=
  ~ uses_xml (xname y) /\ forall a, In a (map fst (xattrs y)) -> ~ lookalike a /\ ~ uses_xml a.

Lemma name_declared_ok up s name : Forall2 trep up s -> ~ uses_xml name -> exists b, name_declared up name = Ok b /\ (b = true <-> name_ok s name).
Proof.
  intros R X. unfold name_declared, name_ok. destruct (colon name) as [[p l]|] eqn:C.
  - rewrite (declared_ok up s R p). eexists. split; [reflexivity|]. rewrite has_key_spec. apply colon_some in C. split.
    + intros H q m Sp. apply colon_some in Sp, C. rewrite Sp in C. injection C as -> ->. right. exact H.
    + intro H. destruct (H p l C) as [->|H']; [|exact H']. exfalso. apply X. exists l. exact C.
  - eexists. split; [reflexivity|]. split; [|reflexivity]. intros _ p l Sp. apply colon_some in Sp. congruence.
Qed.
Lemma attrs_declared_ok up s l : Forall2 trep up s -> Forall (fun p => nul_free (fst p)) l ->
  (forall a, In a (map fst l) -> ~ lookalike a /\ ~ uses_xml a) ->
  exists b, attrs_declared up l = Ok b /\ (b = true <-> forall a, In a (map fst l) -> is_decl a \/ name_ok s a).
Proof.
  intros R. induction l as [|[a v] l IH]; intros N X; cbn [attrs_declared map].
  - eexists. split; [reflexivity|]. split; [intros _ a []|reflexivity].
  - inversion N as [|? ? Na Nl]; subst. cbn [fst] in *. rewrite (starts_ok a Na). cbn [bind].
    destruct (IH Nl) as (b & E & B); [intros c I; apply X; right; exact I|]. destruct (X a (or_introl eq_refl)) as [L U].
    destruct (starts a) eqn:St.
    + exists b. split; [exact E|]. rewrite B. split; intros H c; [|intro I; apply H; right; exact I].
      intros [<-|I]; [|apply H; exact I]. left. destruct (starts_decl a St L) as [->|[Ea _]]; [left; reflexivity|right; eexists; exact Ea].
    + destruct (name_declared_ok up s a R U) as (d & Ed & D). rewrite Ed. cbn [bind]. destruct d.
      * exists b. split; [exact E|]. rewrite B. split; intros H c; [|intro I; apply H; right; exact I].
        intros [<-|I]; [|apply H; exact I]. right. apply D. reflexivity.
      * eexists. split; [reflexivity|]. split; [discriminate|]. intro H. exfalso. destruct (H a (or_introl eq_refl)) as [Y|Y]; [apply (starts_not a St Y)|].
        apply D in Y. discriminate.
Qed.

Inductive ready : elem -> xnode -> Prop :=
| Ready name a t childs ats items : nul_free name -> trep t ats -> good_ats ats -> Forall2 ready childs (elems items) ->
    ready (Elem name a t childs) (XNode name ats items).
Lemma validate_ok : forall e x, okelem e x -> forall up s, Forall2 trep up s -> allp ordinary_here s x ->
  exists e' ok, ns_validate up e = Ok (e', ok) /\ (ok = true <-> allp valid_here s x) /\ (ok = true -> ready e' x).
Proof.
  fix IH 1. intros [name a t0 childs] x H up s R O.
  assert (Hx : t0 = None /\ exists ats items m, x = XNode name ats items /\ nul_free name /\ arep a m /\ Forall vgood m /\ Permutation m ats /\ Forall2 okelem childs (elems items)).
  { inversion H; subst. split; [reflexivity|]. exists ats, items, m. auto 10. }
  destruct Hx as (-> & ats & items & m & -> & N & Ra & G & P & C). clear H.
  rewrite allp_unfold in O. destruct O as [[Ox Oa] Oc]. cbn [xname xattrs] in Ox, Oa.
  destruct (attr_pairs_ok a m Ra) as (l & El & Pl). cbn [ns_validate]. rewrite El. cbn [bind].
  assert (Pa : Permutation l ats) by (eapply perm_trans; eassumption).
  assert (Dl : NoDup (map fst l)).
  { eapply Permutation_NoDup; [apply Permutation_map; apply Permutation_sym; exact Pl|]. apply (arep_nodup _ _ Ra). }
  assert (Da : good_ats ats).
  { split; [eapply Permutation_NoDup; [apply Permutation_map; exact Pa|exact Dl]|]. rewrite Forall_forall in *. intros p I. apply G. eapply Permutation_in; [apply Permutation_sym; exact P|exact I]. }
  assert (Nl : Forall (fun p => nul_free (fst p)) l).
  { rewrite Forall_forall in *. intros p I. destruct (G p) as [X _]; [eapply Permutation_in; [exact Pl|exact I]|exact X]. }
  assert (Xl : forall c, In c (map fst l) -> ~ lookalike c /\ ~ uses_xml c).
  { intros c I. apply Oa. eapply Permutation_in; [apply Permutation_map; exact Pa|exact I]. }
  destruct (install_ok l None []) as (t' & Et & T'); [split; [exists []; split; reflexivity|reflexivity]|exact Nl|intros c I; apply Xl; exact I| |].
  { rewrite app_nil_r, map_rev. eapply Permutation_NoDup; [apply Permutation_rev|exact Dl]. }
  rewrite app_nil_r in T'. cbn [a_find find option_map is_some] in Et. change (is_some (a_find (@nil (bytes * option bytes)) default_decl)) with false in Et.
  rewrite Et. cbn [bind negb].
  assert (Tr : trep match t' with Some t'0 => Some t'0 | None => None end ats).
  { replace (match t' with Some t'0 => Some t'0 | None => None end) with t' by (destruct t'; reflexivity).
    eapply trep_perm; [exact T'| |eapply perm_trans; [apply Permutation_sym, Permutation_rev|exact Pa]].
    rewrite map_rev. eapply Permutation_NoDup; [apply Permutation_rev|exact Dl]. }
  set (t := match t' with Some t'0 => Some t'0 | None => None end) in *.
  assert (R' : Forall2 trep (t :: up) (ats :: s)) by (constructor; assumption).
  destruct (name_declared_ok (t :: up) (ats :: s) name R' Ox) as (b & Eb & B). rewrite Eb. cbn [bind].
  setoid_rewrite (allp_unfold valid_here s name ats items). unfold valid_here at 1. cbn [xname xattrs]. destruct b; cbn [negb].
  2:{ eexists. exists false. split; [reflexivity|]. split; [|discriminate]. split; [discriminate|]. intros [[Y _] _]. apply B in Y. discriminate. }
  destruct (attrs_declared_ok (t :: up) (ats :: s) l R' Nl Xl) as (b & Eb2 & B2). rewrite Eb2. cbn [bind].
  assert (B3 : b = true <-> (forall c, In c (map fst ats) -> is_decl c \/ name_ok (ats :: s) c)).
  { rewrite B2. split; intros Y c I; apply Y; (eapply Permutation_in; [apply Permutation_map|exact I]); [apply Permutation_sym|]; exact Pa. }
  destruct b; cbn [negb].
  2:{ eexists. exists false. split; [reflexivity|]. split; [|discriminate]. split; [discriminate|]. intros [[_ Y] _]. apply B3 in Y. discriminate. }
  match goal with |- context [bind (?f childs)] => set (go := f) end.
  assert (K : exists childs' ok, go childs = Ok (childs', ok) /\ (ok = true <-> Forall (allp valid_here (ats :: s)) (elems items)) /\
    (ok = true -> Forall2 ready childs' (elems items))).
  { clear - IH C Oc R'. revert C Oc. generalize (elems items). induction childs as [|c childs IHc]; intros xs C Oc.
    - inversion C; subst. exists [], true. split; [reflexivity|]. split; [|constructor]. split; constructor.
    - inversion C as [|? y ? ys C1 C2]; subst. inversion Oc as [|? ? O1 O2]; subst. cbn [go].
      destruct (IH c y C1 (t :: up) (ats :: s) R' O1) as (c' & ok & E & V & D). rewrite E. cbn [bind]. destruct ok; cbn [negb].
      + destruct (IHc ys C2 O2) as (cs' & ok & E' & V' & D'). cbn [bind]. change (go childs = Ok (cs', ok)) in E'. 
        change (exists childs' ok0, (' (r, ok) <- go childs;; Ok (c' :: r, ok)) = Ok (childs', ok0) /\ (ok0 = true <-> Forall (allp valid_here (ats :: s)) (y :: ys)) /\ (ok0 = true -> Forall2 ready childs' (y :: ys))).
        rewrite E'. cbn [bind]. eexists. exists ok. split; [reflexivity|]. split.
        * rewrite V'. split; [intro Z; constructor; [apply V; reflexivity|exact Z]|intro Z; inversion Z; assumption].
        * intro Z. constructor; [apply D; reflexivity|apply D'; exact Z].
      + eexists. exists false. split; [reflexivity|]. split; [|discriminate]. split; [discriminate|]. intro Z. inversion Z; subst. apply V. assumption. }
  destruct K as (childs' & ok & E & V & D). rewrite E. cbn [bind]. eexists. exists ok. split; [reflexivity|]. split.
  - rewrite V. split; [intro Z; split; [split; [apply B; reflexivity|apply B3; reflexivity]|exact Z]|intros [_ Z]; exact Z].
  - intro Z. constructor; [exact N|exact Tr|exact Da|apply D; exact Z].
Qed.

(** ** after it *)
Definition stands (up : list elem) (s : scope) : Prop := Forall2 trep (map e_table up) s /\ Forall good_ats s.
Lemma ready_stands e x up s : ready e x -> stands up s -> stands (e :: up) (xattrs x :: s) /\ e_name e = xname x /\ nul_free (e_name e) /\ Forall2 ready (e_childs e) (elems (xitems x)).
Proof. intros H [A B]. destruct H as [name a t childs ats items N T G C]. cbn. split; [split; constructor; assumption|auto]. Qed.
Lemma ready_cmp e x up s ns local : ready e x -> stands up s -> nul_free ns -> nul_free local ->
  exists b, ns_node_cmp (e :: up) ns local = Ok b /\ (b = true <-> named (xattrs x :: s) (xname x) ns local).
Proof.
  intros H St Nn Nl. destruct (ready_stands e x up s H St) as ([A B] & E & N & _). rewrite <- E. apply cmp_named; assumption.
Qed.
Lemma Forall2_nth {A B} (P : A -> B -> Prop) l m : Forall2 P l m -> forall i, match nth_error l i, nth_error m i with Some a, Some b => P a b | None, None => True | _, _ => False end.
Proof. induction 1 as [|a b l m H _ IH]; intros [|i]; cbn; auto. apply IH. Qed.
Lemma Forall2_len {A B} (P : A -> B -> Prop) l m : Forall2 P l m -> length l = length m.
Proof. induction 1; cbn; congruence. Qed.
Lemma at_chain path : forall e x y up s s', ready e x -> stands up s -> at_path s x path y s' ->
  exists e' up' s0, chain_at up e path = Some (e' :: up') /\ ready e' y /\ stands up' s0 /\ s' = xattrs y :: s0.
Proof.
  induction path as [|i path IH]; intros e x y up s s' H St A; inversion A as [? name ats items|? name ats items ? c ? ? ? E B]; subst; cbn [chain_at].
  - exists e, up, s. auto.
  - destruct (ready_stands _ _ _ _ H St) as (St' & _ & _ & C). cbn [xattrs xitems] in *. pose proof (Forall2_nth _ _ _ C i) as X. rewrite E in X.
    destruct (nth_error (e_childs e) i) as [d|]; [|contradiction]. eapply IH; eassumption.
Qed.

Lemma child_called_ok up s l xs ns local : stands up s -> Forall2 ready l xs -> nul_free ns -> nul_free local -> forall k,
  exists o, ns_child_called up l k ns local = Ok (option_map (fun i => k + i) o) /\ first_named s xs ns local o.
Proof.
  intros St H Nn Nl. induction H as [|e x l xs Hx _ IH]; intro k; cbn [ns_child_called].
  - exists None. split; [reflexivity|]. intros j (c & E & _). destruct j; discriminate.
  - destruct (ready_cmp e x up s ns local Hx St Nn Nl) as (b & E & B). rewrite E. cbn [bind]. destruct b.
    + exists (Some 0). cbn [option_map]. rewrite Nat.add_0_r. split; [reflexivity|]. split; [exists x; split; [reflexivity|apply B; reflexivity]|intros j L; lia].
    + assert (N0 : ~ nth_named s (x :: xs) ns local 0).
      { intros (c & Ec & Hc). injection Ec as <-. apply B in Hc. discriminate. }
      destruct (IH (S k)) as (o & Eo & F). exists (option_map S o). split.
      * rewrite Eo. destruct o as [i|]; cbn [option_map]; [|reflexivity]. do 2 f_equal. lia.
      * destruct o as [i|]; cbn [option_map first_named] in *.
        -- destruct F as [F1 F2]. split; [exact F1|]. intros [|j] L; [exact N0|]. apply (F2 j). lia.
        -- intros [|j]; [exact N0|apply F].
Qed.
Lemma Forall2_skipn {A B} (P : A -> B -> Prop) n : forall l m, Forall2 P l m -> Forall2 P (skipn n l) (skipn n m).
Proof. induction n as [|n IH]; intros l m H; [exact H|]. destruct H; [constructor|]. cbn. apply IH. assumption. Qed.
Lemma nth_skipn {A} n : forall (l : list A) i, nth_error (skipn n l) i = nth_error l (n + i).
Proof. induction n as [|n IH]; intros l i; [reflexivity|]. destruct l; cbn; [destruct i; reflexivity|]. apply IH. Qed.
Lemma next_called_ok up s l xs ns local i : stands up s -> Forall2 ready l xs -> nul_free ns -> nul_free local ->
  exists o, ns_next_called up l i ns local = Ok o /\ next_named s xs ns local i o.
Proof.
  intros St H Nn Nl. destruct (child_called_ok up s (skipn (S i) l) (skipn (S i) xs) ns local St (Forall2_skipn _ _ _ _ H) Nn Nl (S i)) as (o & E & F).
  unfold ns_next_called. rewrite E. eexists. split; [reflexivity|].
  assert (Q : forall j, nth_named s (skipn (S i) xs) ns local j <-> nth_named s xs ns local (S i + j)).
  { intro j. unfold nth_named. rewrite nth_skipn. reflexivity. }
  destruct o as [k|]; cbn [option_map next_named first_named] in *.
  - destruct F as [F1 F2]. split; [lia|]. split; [apply Q; exact F1|]. intros j L X. apply (F2 (j - S i)); [lia|]. apply Q. replace (S i + (j - S i)) with j by lia. exact X.
  - intros j L X. apply (F (j - S i)). apply Q. replace (S i + (j - S i)) with j by lia. exact X.
Qed.
Lemma previous_called_ok up s l xs ns local : stands up s -> Forall2 ready l xs -> nul_free ns -> nul_free local -> forall i, i <= length l ->
  exists o, ns_previous_called up l i ns local = Ok o /\ previous_named s xs ns local i o.
Proof.
  intros St H Nn Nl. unfold ns_previous_called. induction i as [|i IH]; intro L; cbn [ns_back].
  - exists None. split; [reflexivity|]. intros j X. lia.
  - pose proof (Forall2_nth _ _ _ H i) as X. destruct (nth_error l i) as [c|] eqn:E; [|apply nth_error_None in E; lia].
    destruct (nth_error xs i) as [x|] eqn:Ex; [|contradiction]. cbn [of_option bind]. destruct (ready_cmp c x up s ns local X St Nn Nl) as (b & Eb & B). rewrite Eb. cbn [bind].
    destruct b.
    + exists (Some i). split; [reflexivity|]. split; [lia|]. split; [exists x; split; [exact Ex|apply B; reflexivity]|intros j Y; lia].
    + assert (N0 : ~ nth_named s xs ns local i).
      { intros (d & Ed & Hd). rewrite Ex in Ed. injection Ed as <-. apply B in Hd. discriminate. }
      destruct IH as (o & Eo & F); [lia|]. exists o. split; [exact Eo|]. destruct o as [k|]; cbn [previous_named] in *.
      * destruct F as (F1 & F2 & F3). split; [lia|]. split; [exact F2|]. intros j Y. destruct (Nat.eq_dec j i) as [->|]; [exact N0|]. apply F3. lia.
      * intros j Y. destruct (Nat.eq_dec j i) as [->|]; [exact N0|]. apply F. lia.
Qed.
Lemma none_below_unfold s name ats items ns local : first_named (ats :: s) (elems items) ns local None ->
  (forall i c, nth_error (elems items) i = Some c -> none_below (ats :: s) c ns local) -> none_below s (XNode name ats items) ns local.
Proof.
  intros F Hc path y s' Np A. inversion A as [|? ? ? ? i c p ? ? E B]; subst; [contradiction|]. destruct p as [|j p].
  - inversion B; subst. intro X. apply (F i). eexists. split; [exact E|exact X].
  - apply (Hc i c E (j :: p)); [discriminate|exact B].
Qed.
Lemma find_called_ok ns local : nul_free ns -> nul_free local -> forall e x up s, ready e x -> stands up s ->
  exists o, ns_find_called up e ns local = Ok o /\ match o with Some path => found_below ns local s x path | None => none_below s x ns local end.
Proof.
  intros Nn Nl. fix IH 1. intros [name a t childs] x up s H St.
  destruct (ready_stands _ _ _ _ H St) as (St' & _ & _ & C). cbn [e_childs] in C.
  destruct x as [xn ats items]. cbn [xattrs xitems] in *. cbn [ns_find_called].
  destruct (child_called_ok _ _ _ _ ns local St' C Nn Nl 0) as (o & E & F). cbn in E. rewrite E. cbn [bind]. destruct o as [i|]; cbn [option_map Nat.add].
  - exists (Some [i]). split; [reflexivity|]. apply found_child. exact F.
  - match goal with |- context [?f childs 0] => set (go := f) end.
    assert (K : forall k, exists o, go childs k = Ok o /\
      match o with
      | Some path => exists i c p, path = k + i :: p /\ nth_error (elems items) i = Some c /\ found_below ns local (ats :: s) c p /\
          forall j d, j < i -> nth_error (elems items) j = Some d -> none_below (ats :: s) d ns local
      | None => forall i c, nth_error (elems items) i = Some c -> none_below (ats :: s) c ns local
      end).
    { clear - IH C St'. revert C. generalize (elems items). unfold go. clear go. revert St'. generalize (Elem name a t childs :: up).
      intros up' St'. induction childs as [|c childs IHc]; intros xs C k.
      - exists None. split; [reflexivity|]. inversion C; subst. intros [|i] c X; discriminate.
      - inversion C as [|? y ? ys C1 C2]; subst. destruct (IH c y up' (ats :: s) C1 St') as (o & E & V). rewrite E. cbn [bind]. destruct o as [p|].
        + exists (Some (k :: p)). split; [reflexivity|]. exists 0, y, p. rewrite Nat.add_0_r. split; [reflexivity|]. split; [reflexivity|]. split; [exact V|]. intros j d X. lia.
        + destruct (IHc ys C2 (S k)) as (o & E' & V'). exists o. split; [exact E'|]. destruct o as [path|].
          * destruct V' as (i & d & p & -> & V1 & V2 & V3). exists (S i), d, p. split; [f_equal; lia|]. split; [exact V1|]. split; [exact V2|].
            intros [|j] d' X Y; [injection Y as <-; exact V|]. apply (V3 j d'); [lia|exact Y].
          * intros [|i] d Y; [injection Y as <-; exact V|]. apply (V' i d Y). }
    destruct (K 0) as (o & Eo & V). exists o. split; [exact Eo|]. destruct o as [path|].
    + destruct V as (i & c & p & -> & V1 & V2 & V3). cbn [Nat.add]. eapply found_deeper; eassumption.
    + apply none_below_unfold; assumption.
Qed.

(** ** the theorems *)
Lemma ns_validates n x : regular n -> shows n x -> ordinary x ->
  exists e ok, ns_doc_validate (Some (elem_of n)) = Ok (Some e, ok) /\ (ok = true <-> ns_valid x).
Proof.
  intros R H O. destruct (validate_ok _ _ (proj1 regular_okelem n x H R) [] [] ltac:(constructor) O) as (e & ok & E & V & _).
  exists e, ok. split; [|exact V]. unfold ns_doc_validate. rewrite E. reflexivity.
Qed.
Lemma ns_resolves n x : regular n -> shows n x -> ordinary x -> forall e, ns_doc_validate (Some (elem_of n)) = Ok (Some e, true) ->
  forall path y s, at_path [] x path y s -> exists c up, chain_at [] e path = Some (c :: up) /\
  forall ns local, nul_free ns -> nul_free local ->
    (exists b, ns_node_cmp (c :: up) ns local = Ok b /\ (b = true <-> named s (xname y) ns local)) /\
    (exists o, ns_child_called (c :: up) (e_childs c) 0 ns local = Ok o /\ first_named s (elems (xitems y)) ns local o) /\
    (forall i, i < length (elems (xitems y)) -> exists o, ns_next_called (c :: up) (e_childs c) i ns local = Ok o /\ next_named s (elems (xitems y)) ns local i o) /\
    (forall i, i < length (elems (xitems y)) -> exists o, ns_previous_called (c :: up) (e_childs c) i ns local = Ok o /\ previous_named s (elems (xitems y)) ns local i o) /\
    (exists o, ns_find_called up c ns local = Ok o /\ match o with Some p => found_below ns local (tl s) y p | None => none_below (tl s) y ns local end).
Proof.
  intros R H O e E path y s A. destruct (validate_ok _ _ (proj1 regular_okelem n x H R) [] [] ltac:(constructor) O) as (e' & ok & E' & V & D).
  unfold ns_doc_validate in E. rewrite E' in E. cbn [bind] in E. injection E as -> ->.
  destruct (at_chain path e x y [] [] s (D eq_refl) ltac:(split; constructor) A) as (c & up & s0 & Ec & Rc & St & ->). exists c, up. split; [exact Ec|].
  intros ns local Nn Nl. destruct (ready_stands _ _ _ _ Rc St) as (St' & _ & _ & C).
  split; [apply ready_cmp; assumption|]. split.
  { destruct (child_called_ok _ _ _ _ ns local St' C Nn Nl 0) as (o & Eo & F). exists o. split; [|exact F]. rewrite Eo. destruct o; reflexivity. }
  split; [intros i L; apply next_called_ok; assumption|]. split.
  { intros i L. apply previous_called_ok; [assumption..|]. rewrite (Forall2_len _ _ _ C). lia. }
  apply find_called_ok; assumption.
Qed.
