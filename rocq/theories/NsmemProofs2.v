(** Proofs about tables that point to attributes. *)
From Coq Require Import Permutation.
From Verif Require Import Prelude XmlSpec NsModel NsSpec NsProofs NsmemModel NsmemSpec NsmemProofs.
Open Scope nat_scope.
Open Scope list_scope.

(** ** what a table shows *)
Definition seen (m : mem) (t : option table) (ats : list (bytes * option bytes)) : Prop :=
  match t with
  | None => forall a, In a (map fst ats) -> ~ decl_like a
  | Some t =>
    (forall k v, In (k, v) (t_pre t) -> exists p val, holds m k (decl p) /\ holds m v val /\ In (decl p, Some val) ats) /\
    (forall p, In (decl p) (map fst ats) -> exists k v, In (k, v) (t_pre t) /\ holds m k (decl p)) /\
    match t_def t with
    | None => ~ In default_decl (map fst ats)
    | Some v => exists val, holds m v val /\ In (default_decl, Some val) ats
    end
  end.
Lemma decl_decl_like p : decl_like (decl p).
Proof. exists (":"%char :: p). reflexivity. Qed.
Lemma default_decl_like : decl_like default_decl.
Proof. exists []. reflexivity. Qed.
Lemma skip_decl p : skipn 6 (decl p) = p.
Proof. reflexivity. Qed.

Lemma look_ok m l p : (forall k v, In (k, v) l -> exists q, holds m k (decl q)) ->
  exists o, look m l p = Ok o /\ match o with Some v => exists k, In (k, v) l /\ holds m k (decl p) | None => forall k v, In (k, v) l -> ~ holds m k (decl p) end.
Proof.
  induction l as [|[k v] l IH]; intro H; [exists None; split; [reflexivity|intros ? ? []]|].
  destruct (H k v (or_introl eq_refl)) as (q & Q). cbn [look]. rewrite (holds_read _ _ _ Q). cbn [bind]. rewrite skip_decl.
  destruct (bytes_eqb q p) eqn:E.
  - apply bytes_eqb_eq in E. subst q. exists (Some v). split; [reflexivity|]. exists k. split; [left; reflexivity|exact Q].
  - destruct IH as (o & -> & Ho); [intros k' v' I; apply (H k' v'); right; exact I|]. exists o. split; [reflexivity|]. destruct o as [w|].
    + destruct Ho as (k' & I & K). exists k'. split; [right; exact I|exact K].
    + intros k' v' [I|I]; [|apply (Ho k' v' I)]. injection I as <- <-. intro K. pose proof (holds_eq _ _ _ _ Q K) as J. apply decl_inj in J. apply bytes_eqb_neq in E. contradiction.
Qed.
(** looking up in a table, or in none *)
Lemma look_seen m t ats p : seen m t ats ->
  exists o, match t with Some t => look m (t_pre t) p | None => Ok None end = Ok o /\
    match o with Some v => exists val, holds m v val /\ In (decl p, Some val) ats | None => ~ In (decl p) (map fst ats) end.
Proof.
  destruct t as [t|]; cbn [seen].
  - intros (A & B & _). destruct (look_ok m (t_pre t) p) as (o & -> & H). { intros k v I. destruct (A k v I) as (q & _ & Q & _). eauto. }
    exists o. split; [reflexivity|]. destruct o as [v|].
    + destruct H as (k & I & K). destruct (A k v I) as (q & val & Q & V & J). pose proof (holds_eq _ _ _ _ K Q) as E. apply decl_inj in E. subst q. eauto.
    + intro I. destruct (B p I) as (k & v & J & K). exact (H k v J K).
  - intro H. exists None. split; [reflexivity|]. intro I. apply (H _ I). apply decl_decl_like.
Qed.
Lemma declared_up_ok m up s p : Forall2 (seen m) up s -> exists b, declared_up m up p = Ok b /\ (b = true <-> Exists (fun ats => In (decl p) (map fst ats)) s).
Proof.
  induction 1 as [|t ats up s T R IH]; cbn [declared_up]; [exists false; split; [reflexivity|]; split; [discriminate|intro H; inversion H]|].
  destruct (look_seen m t ats p T) as (o & -> & H). cbn [bind]. destruct o as [v|].
  - destruct H as (val & _ & I). exists true. split; [reflexivity|]. split; [|reflexivity]. intros _. apply Exists_cons_hd. change (decl p) with (fst (decl p, Some val)). apply in_map. exact I.
  - destruct IH as (b & -> & B). exists b. split; [reflexivity|]. rewrite B. split; [apply Exists_cons_tl|]. intro E. inversion E; subst; [contradiction|assumption].
Qed.
Lemma uniq (ats : list (bytes * option bytes)) k o o' : NoDup (map fst ats) -> In (k, o) ats -> In (k, o') ats -> o = o'.
Proof.
  induction ats as [|[x y] ats IH]; intros N I J; [contradiction|]. cbn in N. inversion N as [|? ? A B]; subst.
  destruct I as [I|I], J as [J|J].
  - congruence.
  - injection I as -> ->. exfalso. apply A. change k with (fst (k, o')). apply in_map. exact J.
  - injection J as -> ->. exfalso. apply A. change k with (fst (k, o)). apply in_map. exact I.
  - apply IH; assumption.
Qed.
Lemma nearest_here_iff k ats s val ns : NoDup (map fst ats) -> In (k, Some val) ats -> (val = ns <-> nearest k (ats :: s) ns).
Proof.
  intros N I. split; [intros <-; constructor; exact I|]. intro H. inversion H as [? ? ? J|? ? ? J]; subst.
  - pose proof (uniq _ _ _ _ N I J) as E. congruence.
  - exfalso. apply J. change k with (fst (k, Some val)). apply in_map. exact I.
Qed.
Lemma nearest_up_iff k ats s ns : ~ In k (map fst ats) -> (nearest k s ns <-> nearest k (ats :: s) ns).
Proof.
  intro N. split; [intro H; apply nearest_up; assumption|]. intro H. inversion H as [? ? ? J|? ? ? J]; subst; [|assumption].
  exfalso. apply N. change k with (fst (k, Some ns)). apply in_map. exact J.
Qed.
Lemma bound_ok m up s p ns : Forall2 (seen m) up s -> Forall (fun ats => NoDup (map fst ats)) s -> exists b, bound m up p ns = Ok b /\ (b = true <-> nearest (decl p) s ns).
Proof.
  intros R N. induction R as [|t ats up s T R IH]; cbn [bound]; [exists false; split; [reflexivity|]; split; [discriminate|intro H; inversion H]|].
  inversion N as [|? ? N1 N2]; subst.
  destruct (look_seen m t ats p T) as (o & -> & H). cbn [bind]. destruct o as [v|].
  - destruct H as (val & V & I). rewrite (holds_read _ _ _ V). cbn [bind]. eexists. split; [reflexivity|]. rewrite bytes_eqb_eq. apply nearest_here_iff; assumption.
  - destruct (IH N2) as (b & -> & B). exists b. split; [reflexivity|]. rewrite B. apply nearest_up_iff. exact H.
Qed.
Lemma default_ok m up s ns : Forall2 (seen m) up s -> Forall (fun ats => NoDup (map fst ats)) s -> exists b, default_is m up ns = Ok b /\ (b = true <-> nearest default_decl s ns).
Proof.
  intros R N. induction R as [|t ats up s T R IH]; cbn [default_is]; [exists false; split; [reflexivity|]; split; [discriminate|intro H; inversion H]|].
  inversion N as [|? ? N1 N2]; subst. destruct (IH N2) as (b & E & B).
  assert (U : ~ In default_decl (map fst ats) -> exists b, default_is m up ns = Ok b /\ (b = true <-> nearest default_decl (ats :: s) ns)).
  { intro U. exists b. split; [exact E|]. rewrite B. apply nearest_up_iff. exact U. }
  destruct t as [[pre [v|]]|].
  - destruct T as (_ & _ & (val & V & I)). rewrite (holds_read _ _ _ V). cbn [bind]. eexists. split; [reflexivity|]. rewrite bytes_eqb_eq. apply nearest_here_iff; assumption.
  - apply U. apply T.
  - apply U. intro I. apply (T _ I). apply default_decl_like.
Qed.
Lemma name_fine_ok m up s name : Forall2 (seen m) up s -> ~ uses_xml name -> exists b, name_fine m up name = Ok b /\ (b = true <-> name_ok s name).
Proof.
  intros R X. unfold name_fine, name_ok. destruct (colon name) as [[p l]|] eqn:C.
  - apply colon_some in C. destruct (declared_up_ok m up s p R) as (b & -> & B). exists b. split; [reflexivity|]. rewrite B. unfold declared. split.
    + intros E q l' Q. apply colon_some in Q. apply colon_some in C. rewrite C in Q. injection Q as <- <-. auto.
    + intro H. destruct (H p l C) as [->|E]; [|exact E]. exfalso. apply X. exists l. exact C.
  - exists true. split; [reflexivity|]. split; [|reflexivity]. intros _ p l Q. apply colon_some in Q. congruence.
Qed.
Lemma xmlns_spec a : xmlns a = true <-> decl_like a.
Proof.
  unfold xmlns, decl_like. rewrite bytes_eqb_eq. split.
  - intro H. exists (skipn 5 a). rewrite <- (firstn_skipn 5 a) at 1. f_equal. exact H.
  - intros [r ->]. reflexivity.
Qed.
Lemma is_decl_like a : is_decl a -> decl_like a.
Proof. intros [->|[p ->]]; [apply default_decl_like|apply decl_decl_like]. Qed.
Lemma like_is_decl a : decl_like a -> ~ lookalike a -> is_decl a.
Proof.
  intros [r ->] L. destruct r as [|c r]; [left; reflexivity|]. destruct (Ascii.eqb_spec c ":") as [->|N]; [right; exists r; reflexivity|].
  exfalso. apply L. split; [exists (c :: r); reflexivity|]. intros [H|[p H]]; [discriminate|]. injection H. intros _ ?. contradiction.
Qed.
Lemma attrs_fine_ok m up s l ats : Forall2 (seen m) up s -> texts m l ats -> (forall a, In a (map fst ats) -> ~ lookalike a /\ ~ uses_xml a) ->
  exists b, attrs_fine m up l = Ok b /\ (b = true <-> forall a, In a (map fst ats) -> is_decl a \/ name_ok s a).
Proof.
  intros R T O. induction T as [|a x l ats [K _] T IH]; cbn [attrs_fine]; [exists true; split; [reflexivity|]; split; [intros _ ? []|reflexivity]|].
  rewrite (holds_read _ _ _ K). cbn [bind]. destruct IH as (b & E & B); [intros c I; apply O; right; exact I|].
  destruct (O (fst x)) as [L X]; [left; reflexivity|]. destruct (xmlns (fst x)) eqn:D.
  - exists b. split; [exact E|]. rewrite B. cbn [map In]. apply xmlns_spec in D. apply like_is_decl in D; [|exact L]. split; [intros H c [<-|I]; auto|]. intros H c I. apply H. auto.
  - destruct (name_fine_ok m up s (fst x) R X) as (c & -> & C). cbn [bind].
    assert (ND : ~ is_decl (fst x)) by (intro I; apply is_decl_like, xmlns_spec in I; congruence).
    destruct c.
    + exists b. split; [exact E|]. rewrite B. cbn [map In]. split; [intros H d [<-|I]; [right; apply C; reflexivity|auto]|]. intros H d I. apply H. auto.
    + exists false. split; [reflexivity|]. split; [discriminate|]. intro H. destruct (H (fst x)) as [I|I]; [left; reflexivity|contradiction|]. apply C. exact I.
Qed.

(** ** making a table *)
(** the table points to the attributes [l] *)
Definition points (m : mem) (t : option table) (l : list attr) : Prop :=
  match t with
  | None => True
  | Some t =>
    (forall k v, In (k, v) (t_pre t) -> exists a, In a l /\ a_key a = k /\ a_val a = v) /\
    match t_def t with None => True | Some v => exists a, In a l /\ a_val a = v /\ holds m (a_key a) default_decl end
  end.
Lemma points_more m t l l' : (forall a, In a l -> In a l') -> points m t l -> points m t l'.
Proof.
  intro I. destruct t as [t|]; [|auto]. intros [P D]. split.
  - intros k v J. destruct (P k v J) as (a & A & B). exists a. auto.
  - destruct (t_def t); [|exact Logic.I]. destruct D as (a & A & B). exists a. auto.
Qed.
Lemma install_ok m : forall r rs l ls t df, texts m r rs -> NoDup (map fst (ls ++ rs)) -> (forall a, In a (map fst rs) -> ~ lookalike a) ->
  seen m t ls -> points m t l -> (df = true -> In default_decl (map fst ls)) -> (df = false -> match t with Some t => t_def t = None | None => True end) ->
  (t <> None -> exists a, In a (map fst ls) /\ decl_like a) ->
  exists t', install m r t df = Ok (t', true) /\ seen m t' (ls ++ rs) /\ points m t' (l ++ r) /\ (t' <> None -> exists a, In a (map fst (ls ++ rs)) /\ decl_like a).
Proof.
  intros r rs l ls t df T. revert l ls t df. induction T as [|a x r rs X T IH]; intros l ls t df N O S P D D' W; cbn [install].
  - exists t. rewrite !app_nil_r. auto.
  - destruct X as [K (v & Ev & V)]. destruct x as [name o]. cbn in K, Ev. subst o. rewrite (holds_read _ _ _ K). cbn [bind].
    assert (C1 : forall X (p : list X) q s, p ++ q :: s = (p ++ [q]) ++ s) by (intros; rewrite <- app_assoc; reflexivity).
    rewrite (C1 _ ls), (C1 _ l). rewrite C1 in N.
    assert (Nn : ~ In name (map fst ls)).
    { rewrite !map_app in N. cbn in N. rewrite <- app_assoc in N. cbn in N. apply NoDup_remove_2 in N. rewrite in_app_iff in N. tauto. }
    assert (O' : forall c, In c (map fst rs) -> ~ lookalike c) by (intros c I; apply O; right; exact I).
    assert (Ol : ~ lookalike name) by (apply O; left; reflexivity).
    assert (Pm : forall t, points m t l -> points m t (l ++ [a])) by (intros t0; apply points_more; intros c I; apply in_or_app; auto).
    assert (InL : forall y, In y (map fst (ls ++ [(name, Some v)])) <-> In y (map fst ls) \/ y = name).
    { intro y. rewrite map_app, in_app_iff. cbn. intuition congruence. }
    assert (InL2 : forall y, In y ls -> In y (ls ++ [(name, Some v)])) by (intros; apply in_or_app; auto).
    assert (InL3 : In (name, Some v) (ls ++ [(name, Some v)])) by (apply in_or_app; right; left; reflexivity).
    assert (InA : In a (l ++ [a])) by (apply in_or_app; right; left; reflexivity).
    destruct (xmlns name) eqn:E; cbn [negb].
    + apply xmlns_spec in E. destruct (like_is_decl _ E Ol) as [->|[p ->]].
      * change (length default_decl =? 5) with true. cbn iota. destruct df; [exfalso; apply Nn; apply D; reflexivity|].
        assert (Dn : t_def (match t with Some t => t | None => Table [] None end) = None). { destruct t as [t|]; [apply D'; reflexivity|reflexivity]. }
        apply IH; [exact N|exact O'| | |intros _; apply InL; right; reflexivity|discriminate|intros _; exists default_decl; split; [apply InL; auto|apply default_decl_like]].
        -- destruct t as [t|]; cbn.
           ++ destruct S as (S1 & S2 & _). split. { intros k w I. destruct (S1 k w I) as (q & val & A & B & C). exists q, val. auto. }
              split. { intros q I. apply InL in I as [I|I]; [apply S2; exact I|discriminate]. }
              exists v. auto.
           ++ split; [intros ? ? []|]. split. { intros q I. apply InL in I as [I|I]; [|discriminate]. exfalso. apply (S _ I). apply decl_decl_like. }
              exists v. auto.
        -- destruct t as [t|]; cbn.
           ++ split; [apply (Pm (Some t) P)|]. exists a. auto.
           ++ split; [intros ? ? []|]. exists a. auto.
      * replace (length (decl p) =? 5) with false by reflexivity. cbn iota. rewrite skip_decl.
        assert (LK : look m (t_pre (match t with Some t => t | None => Table [] None end)) p = Ok None).
        { destruct t as [t|]; [|reflexivity]. destruct (look_seen m (Some t) ls p S) as (o & Q & H). cbn iota in Q. rewrite Q. destruct o as [w|]; [|reflexivity].
          destruct H as (val & _ & I). exfalso. apply Nn. change (decl p) with (fst (decl p, Some val)). apply in_map. exact I. }
        rewrite LK. cbn [bind]. apply IH; [exact N|exact O'| | | | |intros _; exists (decl p); split; [apply InL; auto|apply decl_decl_like]].
        -- cbn [seen t_pre t_def]. split.
           { intros k w I. apply in_app_or in I as [I|[I|[]]].
             - destruct t as [t|]; [|contradiction]. destruct S as (S1 & _). destruct (S1 k w I) as (q & val & A & B & C). exists q, val. auto.
             - injection I as <- <-. exists p, v. auto. }
           split.
           { intros q I. apply InL in I as [I|I].
             - destruct t as [t|]; [|exfalso; apply (S _ I); apply decl_decl_like]. destruct S as (_ & S2 & _). destruct (S2 q I) as (k & w & A & B). exists k, w. split; [apply in_or_app; auto|exact B].
             - apply decl_inj in I. subst q. exists (a_key a), (a_val a). split; [apply in_or_app; right; left; reflexivity|exact K]. }
           destruct t as [t|]; cbn.
           ++ destruct S as (_ & _ & S3). destruct (t_def t) as [w|]; [destruct S3 as (val & A & B); exists val; auto|]. intro I. apply InL in I as [I|I]; [contradiction|discriminate].
           ++ intro I. apply InL in I as [I|I]; [apply (S _ I); apply default_decl_like|discriminate].
        -- cbn [points t_pre t_def]. split.
           { intros k w I. apply in_app_or in I as [I|[I|[]]].
             - destruct t as [t|]; [|contradiction]. apply (proj1 (Pm (Some t) P)). exact I.
             - injection I as <- <-. exists a. auto. }
           destruct t as [t|]; cbn; [apply (Pm (Some t) P)|exact Logic.I].
        -- intro Q. apply InL. left. apply D. exact Q.
        -- intro Q. destruct t as [t|]; [apply D'; exact Q|reflexivity].
    + assert (Nd : ~ decl_like name) by (intro I; apply xmlns_spec in I; congruence).
      apply IH; [exact N|exact O'| |apply Pm; exact P| |exact D'|intro Q; destruct (W Q) as (c & A & B); exists c; split; [apply InL; auto|exact B]].
      * destruct t as [t|]; cbn.
        -- destruct S as (S1 & S2 & S3). split. { intros k w I. destruct (S1 k w I) as (q & val & A & B & C). exists q, val. auto. }
           split. { intros q I. apply InL in I as [I|I]; [apply S2; exact I|]. exfalso. apply Nd. rewrite <- I. apply decl_decl_like. }
           destruct (t_def t) as [w|]; [destruct S3 as (val & A & B); exists val; auto|]. intro I. apply InL in I as [I|I]; [contradiction|]. apply Nd. rewrite <- I. apply default_decl_like.
        -- intros y I. apply InL in I as [I| ->]; [apply S; exact I|exact Nd].
      * intro Q. apply InL. left. apply D. exact Q.
Qed.
Lemma seen_perm m t ats ats' : Permutation ats ats' -> seen m t ats -> seen m t ats'.
Proof.
  intros P. assert (I : forall x, In x ats <-> In x ats') by (intro x; split; apply Permutation_in; [exact P|symmetry; exact P]).
  assert (J : forall x, In x (map fst ats) <-> In x (map fst ats')) by (intro x; split; apply Permutation_in; apply Permutation_map; [exact P|symmetry; exact P]).
  destruct t as [t|]; cbn [seen].
  - intros (A & B & C). split. { intros k v K. destruct (A k v K) as (p & val & ?). exists p, val. rewrite <- I. assumption. }
    split. { intros p K. apply B. apply J. exact K. }
    destruct (t_def t); [destruct C as (val & ?); exists val; rewrite <- I; assumption|rewrite <- J; exact C].
  - intros A a K. apply A. apply J. exact K.
Qed.
