(** Proofs about documents with tables that are changed. *)
From Coq Require Import Permutation.
From Verif Require Import Prelude XmlSpec NsModel NsSpec NsProofs NsmemModel NsmemSpec NsmemProofs NsmemProofs2.
Open Scope nat_scope.
Open Scope list_scope.

(** ** lists with one place changed *)
Definition put_at {A} (l : list A) (i : nat) (x : A) : list A := firstn i l ++ x :: skipn (S i) l.
Lemma cut_at {A} (l : list A) i y : nth_error l i = Some y -> exists l1 l2, l = l1 ++ y :: l2 /\ length l1 = i /\ forall x, put_at l i x = l1 ++ x :: l2.
Proof.
  intro H. destruct (nth_error_split l i H) as (l1 & l2 & -> & <-). exists l1, l2. split; [reflexivity|]. split; [reflexivity|]. intro x. unfold put_at.
  rewrite firstn_app, Nat.sub_diag, firstn_all, firstn_O, app_nil_r. f_equal. f_equal.
  rewrite skipn_app. rewrite skipn_all2 by lia. replace (S (length l1) - length l1) with 1 by lia. reflexivity.
Qed.
Lemma put_at_length {A} (l : list A) i x y : nth_error l i = Some y -> length (put_at l i x) = length l.
Proof. intro H. destruct (cut_at l i y H) as (l1 & l2 & -> & _ & E). rewrite E, !app_length. reflexivity. Qed.
Lemma put_at_nth {A} (l : list A) i x y j : nth_error l i = Some y -> nth_error (put_at l i x) j = if j =? i then Some x else nth_error l j.
Proof.
  intro H. destruct (cut_at l i y H) as (l1 & l2 & -> & L & E). rewrite E. destruct (Nat.eqb_spec j i) as [->|N].
  - rewrite nth_error_app2, L, Nat.sub_diag by lia. reflexivity.
  - destruct (Nat.lt_ge_cases j (length l1)) as [Q|Q]; [rewrite !nth_error_app1 by lia; reflexivity|].
    rewrite !nth_error_app2 by lia. destruct (j - length l1) eqn:D; [lia|reflexivity].
Qed.
Lemma put_at_id {A} (l : list A) i y : nth_error l i = Some y -> put_at l i y = l.
Proof. intro H. destruct (cut_at l i y H) as (l1 & l2 & -> & _ & E). apply E. Qed.
Lemma at_eq (d : pdoc) i f p n ats : nth_error d i = Some (p, n, ats) -> at_ d i f = put_at d i (p, n, f ats).
Proof. intro H. unfold at_. rewrite H. reflexivity. Qed.
Lemma at_none (d : pdoc) i f : nth_error d i = None -> at_ d i f = d.
Proof. intro H. unfold at_. rewrite H. reflexivity. Qed.
Lemma at_id (d : pdoc) i f : (forall p n ats, nth_error d i = Some (p, n, ats) -> f ats = ats) -> at_ d i f = d.
Proof.
  intro F. destruct (nth_error d i) as [[[p n] ats]|] eqn:E; [|apply at_none; exact E]. rewrite (at_eq _ _ _ _ _ _ E), (F _ _ _ eq_refl). apply put_at_id. exact E.
Qed.
Lemma at_length (d : pdoc) i f : length (at_ d i f) = length d.
Proof. destruct (nth_error d i) as [[[p n] ats]|] eqn:E; [|rewrite at_none by exact E; reflexivity]. rewrite (at_eq _ _ _ _ _ _ E). eapply put_at_length. exact E. Qed.
Lemma at_nth (d : pdoc) i f j p n ats : nth_error (at_ d i f) j = Some (p, n, ats) ->
  (j <> i /\ nth_error d j = Some (p, n, ats)) \/ (j = i /\ exists ats0, nth_error d i = Some (p, n, ats0) /\ ats = f ats0).
Proof.
  destruct (nth_error d i) as [[[p0 n0] ats0]|] eqn:E.
  - rewrite (at_eq _ _ _ _ _ _ E), (put_at_nth _ _ _ _ _ E). destruct (Nat.eqb_spec j i) as [->|N]; [|auto]. intro H. injection H as <- <- <-. right. eauto.
  - rewrite at_none by exact E. intro H. left. split; [congruence|exact H].
Qed.
Lemma edit_set (d : pdoc) i n v : match n with [] => d | _ => at_ d i (add n v) end = at_ d i (added n v).
Proof. unfold added. destruct n; [symmetry; apply at_id; reflexivity|reflexivity]. Qed.

(** ** the document in memory *)
Definition all_ptrs (l : list elem) : list nat := flat_map (fun e => ptrs (e_attrs e)) l.
Record inv (s : st) (d : pdoc) : Prop := Inv {
  i_len : length (s_elems s) = length d;
  i_at : forall i e p n ats, nth_error (s_elems s) i = Some e -> nth_error d i = Some (p, n, ats) ->
    e_parent e = p /\ e_name e = n /\ (forall j, p = Some j -> j < i) /\ NoDup (map fst ats) /\ ~ In [] (map fst ats) /\
    exists l, texts (s_mem s) (e_attrs e) l /\ Permutation l ats;
  i_own : NoDup (all_ptrs (s_elems s)) }.
Lemma all_ptrs_in l i e p : nth_error l i = Some e -> In p (ptrs (e_attrs e)) -> In p (all_ptrs l).
Proof. intros H I. apply in_flat_map. exists e. split; [eapply nth_error_In; exact H|exact I]. Qed.
Lemma apart l i j e e' p : NoDup (all_ptrs l) -> i <> j -> nth_error l i = Some e -> nth_error l j = Some e' -> In p (ptrs (e_attrs e)) -> ~ In p (ptrs (e_attrs e')).
Proof.
  intros N D H H' I J. destruct (nth_error_split l i H) as (l1 & l2 & -> & L). unfold all_ptrs in N. rewrite flat_map_app in N. cbn [flat_map] in N.
  destruct (NoDup_mid _ _ _ N) as (_ & _ & X). apply (X p I). fold (all_ptrs l1) (all_ptrs l2). apply in_or_app.
  destruct (Nat.lt_ge_cases j (length l1)) as [Q|Q].
  - left. rewrite nth_error_app1 in H' by lia. eapply all_ptrs_in; eassumption.
  - right. rewrite nth_error_app2 in H' by lia. destruct (j - length l1) as [|k] eqn:E; [lia|]. cbn in H'. eapply all_ptrs_in; eassumption.
Qed.
Lemma elem_own l i e : NoDup (all_ptrs l) -> nth_error l i = Some e -> NoDup (ptrs (e_attrs e)).
Proof.
  intros N H. destruct (nth_error_split l i H) as (l1 & l2 & -> & L). unfold all_ptrs in N. rewrite flat_map_app in N. cbn [flat_map] in N.
  apply (NoDup_mid _ _ _ N).
Qed.
Lemma elem_there s d i e : inv s d -> nth_error (s_elems s) i = Some e -> exists ats, nth_error d i = Some (e_parent e, e_name e, ats).
Proof.
  intros V H. destruct (nth_error d i) as [[[p n] ats]|] eqn:E.
  - destruct (i_at s d V i e p n ats H E) as (<- & <- & _). eauto.
  - apply nth_error_None in E. rewrite <- (i_len s d V) in E. apply nth_error_None in E. congruence.
Qed.
Lemma there_elem s d i x : inv s d -> nth_error d i = Some x -> exists e, nth_error (s_elems s) i = Some e.
Proof.
  intros V H. destruct (nth_error (s_elems s) i) as [e|] eqn:E; [eauto|]. apply nth_error_None in E. rewrite (i_len s d V) in E. apply nth_error_None in E. congruence.
Qed.
Lemma ptr_lt s d i e p : inv s d -> nth_error (s_elems s) i = Some e -> In p (ptrs (e_attrs e)) -> p < length (s_mem s).
Proof.
  intros V H I. destruct (elem_there s d i e V H) as (ats & E). destruct (i_at s d V i e _ _ _ H E) as (_ & _ & _ & _ & _ & l & T & _). eapply texts_lt; eassumption.
Qed.
Lemma all_ptrs_inv l p : In p (all_ptrs l) -> exists i e, nth_error l i = Some e /\ In p (ptrs (e_attrs e)).
Proof. intro I. apply in_flat_map in I as (e & I & P). apply In_nth_error in I as (i & I). eauto. Qed.

(** one element gets other attributes *)
Record step (m m' : mem) (l l' : list attr) : Prop := Step {
  p_len : length m <= length m';
  p_frame : forall p, p < length m -> ~ In p (ptrs l) -> same m m' p;
  p_own : NoDup (ptrs l');
  p_new : forall p, In p (ptrs l') -> In p (ptrs l) \/ length m <= p }.
Lemma step_inv s d i e p n ats f m' l' ats' t : inv s d -> nth_error (s_elems s) i = Some e -> nth_error d i = Some (p, n, ats) ->
  step (s_mem s) m' (e_attrs e) l' -> texts m' l' ats' -> Permutation ats' (f ats) -> NoDup (map fst (f ats)) -> ~ In [] (map fst (f ats)) ->
  inv (St m' (upd (s_elems s) i (Elem (e_parent e) (e_name e) l' t))) (at_ d i f).
Proof.
  intros V H E P T Pm N Z. change upd with (@put_at elem). constructor; cbn [s_mem s_elems].
  - rewrite at_length. rewrite (put_at_length _ _ _ _ H). apply V.
  - intros j e' p' n' ats0 H' E'. rewrite (put_at_nth _ _ _ _ _ H) in H'. apply at_nth in E' as [[D E']|[-> (ats1 & E' & ->)]].
    + destruct (Nat.eqb_spec j i) as [->|_]; [contradiction|]. destruct (i_at s d V j e' p' n' ats0 H' E') as (A & B & C & D1 & D2 & l & Tl & Pl).
      repeat split; auto. exists l. split; [|exact Pl]. apply (texts_same (s_mem s)); [|exact Tl]. intros q Q. apply (p_frame _ _ _ _ P).
      * eapply ptr_lt; eassumption.
      * apply (apart (s_elems s) j i e' e); auto. apply V.
    + rewrite Nat.eqb_refl in H'. injection H' as <-. rewrite E in E'. injection E' as <- <- <-. destruct (i_at s d V i e p n ats H E) as (A & B & C & _).
      cbn. repeat split; auto. exists ats'. auto.
  - destruct (cut_at (s_elems s) i e H) as (l1 & l2 & L & _ & Eq). rewrite Eq. pose proof (i_own s d V) as O. rewrite L in O.
    unfold all_ptrs in *. rewrite flat_map_app in *. cbn [flat_map] in *. cbn [e_attrs].
    destruct (NoDup_mid _ _ _ O) as (N1 & N2 & N3).
    assert (X : forall q, In q (ptrs l') -> ~ In q (flat_map (fun e => ptrs (e_attrs e)) l1 ++ flat_map (fun e => ptrs (e_attrs e)) l2)).
    { intros q Q. destruct (p_new _ _ _ _ P q Q) as [R|R]; [apply N3; exact R|]. intro I.
      assert (I' : In q (all_ptrs (s_elems s))). { rewrite L. unfold all_ptrs. rewrite flat_map_app. cbn [flat_map]. apply in_app_iff in I. rewrite !in_app_iff. tauto. }
      apply all_ptrs_inv in I' as (j & e' & J & Je). pose proof (ptr_lt s d j e' q V J Je). lia. }
    clear - N1 X P. pose proof (p_own _ _ _ _ P) as O. revert O X. generalize (ptrs l') as b. generalize N1. generalize (flat_map (fun e => ptrs (e_attrs e)) l1) as a, (flat_map (fun e => ptrs (e_attrs e)) l2) as c.
    intros a c N b O X. induction b as [|x b IH]; [exact N|]. inversion O as [|? ? Ox Ob]; subst. cbn.
    eapply Permutation_NoDup; [apply Permutation_middle|]. constructor.
    + rewrite !in_app_iff. specialize (X x (or_introl eq_refl)). rewrite in_app_iff in X. tauto.
    + apply IH; [exact Ob|]. intros q Q. apply X. right. exact Q.
Qed.

(** ** tables *)
Definition tabbed (m : mem) (e : elem) (i : nat) (x : pelem) : Prop :=
  let '(p, n, ats) := x in
  e_parent e = p /\ e_name e = n /\ (forall j, p = Some j -> j < i) /\ NoDup (map fst ats) /\ seen m (e_tab e) ats /\ points m (e_tab e) (e_attrs e).
Definition tabs (k : nat) (s : st) (d : pdoc) : Prop :=
  length (s_elems s) = length d /\ forall i e x, i < k -> nth_error (s_elems s) i = Some e -> nth_error d i = Some x -> tabbed (s_mem s) e i x.
Lemma tables_ok k s d : tabs k s d -> forall fuel i, i < k -> i < length d -> i < fuel ->
  exists up sc, tables fuel (s_elems s) (Some i) = Ok up /\ scope_of d (Some i) sc /\ Forall2 (seen (s_mem s)) up sc /\ Forall (fun ats => NoDup (map fst ats)) sc.
Proof.
  intros [L T]. induction fuel as [|fuel IH]; intros i K D F; [lia|]. cbn [tables].
  destruct (nth_error (s_elems s) i) as [e|] eqn:E; [|apply nth_error_None in E; lia]. cbn [of_option bind].
  destruct (nth_error d i) as [[[p n] ats]|] eqn:Ed; [|apply nth_error_None in Ed; lia].
  destruct (T i e _ K E Ed) as (Ep & _ & Pp & N & S & _). rewrite Ep. destruct p as [j|].
  - specialize (Pp j eq_refl). destruct (IH j ltac:(lia) ltac:(lia) ltac:(lia)) as (up & sc & -> & A & B & C). cbn [bind].
    exists (e_tab e :: up), (ats :: sc). split; [reflexivity|]. split; [econstructor; eassumption|]. split; constructor; assumption.
  - assert (tables fuel (s_elems s) None = Ok []) as -> by (destruct fuel; reflexivity). cbn [bind].
    exists [e_tab e], [ats]. split; [reflexivity|]. split; [econstructor; [eassumption|constructor]|]. repeat constructor; assumption.
Qed.
Lemma scope_det d i s : scope_of d i s -> forall s', scope_of d i s' -> s = s'.
Proof.
  induction 1 as [|i p n ats s H S IH]; intros s' H'; inversion H' as [|? p' n' ats' s1 E S1]; subst; [reflexivity|]. rewrite H in E. injection E as <- <- <-. f_equal. apply IH. exact S1.
Qed.
Lemma node_is_ok s d i ns local : tabs (length d) s d -> i < length d -> exists r, node_is s i ns local = Ok r /\ (r = true <-> is_named d i ns local).
Proof.
  intros T I. pose proof T as [L Ti]. destruct (tables_ok _ s d T (S (length (s_elems s))) i I I ltac:(lia)) as (up & sc & E & Sc & R & N).
  unfold node_is. destruct (nth_error (s_elems s) i) as [e|] eqn:Ee; [|apply nth_error_None in Ee; lia]. cbn [of_option bind]. rewrite E. cbn [bind].
  destruct (nth_error d i) as [[[p n] ats]|] eqn:Ed; [|apply nth_error_None in Ed; lia].
  destruct (Ti i e _ I Ee Ed) as (_ & En & _). rewrite En.
  assert (Q : is_named d i ns local <-> named sc n ns local).
  { split; [|intro H; exists p, n, ats, sc; auto]. intros (p' & n' & ats' & s' & A & B & C). rewrite Ed in A. injection A as <- <- <-. rewrite (scope_det _ _ _ Sc _ B). exact C. }
  setoid_rewrite Q. unfold named. destruct (colon n) as [[pf l]|] eqn:C.
  - destruct (bound_ok _ up sc pf ns R N) as (b & -> & B). cbn [bind]. eexists. split; [reflexivity|]. rewrite andb_true_iff, bytes_eqb_eq, B. apply colon_some in C. split.
    + intros [H ->]. left. eauto.
    + intros [(p' & S & H)|[U _]].
      * apply colon_some in S. apply colon_some in C. rewrite C in S. injection S as <- <-. auto.
      * apply colon_none in U. apply colon_some in C. congruence.
  - destruct (default_ok _ up sc ns R N) as (b & -> & B). cbn [bind]. eexists. split; [reflexivity|]. rewrite andb_true_iff, bytes_eqb_eq, B. split.
    + intros [H ->]. right. apply colon_none in C. auto.
    + intros [(p' & S & _)|[_ [-> H]]]; [apply colon_some in S; congruence|auto].
Qed.

(** ** validating *)
(** an element that has a table declares something *)
Definition covered (s : st) (d : pdoc) : Prop :=
  forall i e p n ats, nth_error (s_elems s) i = Some e -> nth_error d i = Some (p, n, ats) -> e_tab e <> None -> exists a, In a (map fst ats) /\ decl_like a.
Definition here (d : pdoc) (i : nat) : Prop :=
  forall p n ats s, nth_error d i = Some (p, n, ats) -> scope_of d (Some i) s -> name_ok s n /\ forall a, In a (map fst ats) -> is_decl a \/ name_ok s a.
Lemma put_tab_inv s d i e t : inv s d -> nth_error (s_elems s) i = Some e -> inv (St (s_mem s) (upd (s_elems s) i (Elem (e_parent e) (e_name e) (e_attrs e) t))) d.
Proof.
  intros V H. destruct (elem_there s d i e V H) as (ats & E). destruct (i_at s d V i e _ _ _ H E) as (_ & _ & _ & N & Z & l & T & P).
  rewrite <- (at_id d i (fun x => x)) by reflexivity. eapply (step_inv s d i e _ _ ats (fun x => x)); try eassumption.
  constructor; auto; [intros; reflexivity|]. eapply elem_own; [apply V|exact H].
Qed.
Lemma validate_at_ok s d i : inv s d -> tabs i s d -> covered s d -> ordinary d -> i < length d ->
  exists s' b, validate_at s i = Ok (s', b) /\ inv s' d /\ covered s' d /\ tabs (S i) s' d /\ (b = true <-> here d i).
Proof.
  intros V T C O I. unfold validate_at.
  destruct (nth_error (s_elems s) i) as [e|] eqn:Ee; [|apply nth_error_None in Ee; rewrite (i_len s d V) in Ee; lia]. cbn [of_option bind].
  destruct (elem_there s d i e V Ee) as (ats & Ed). destruct (i_at s d V i e _ _ _ Ee Ed) as (_ & _ & Pp & N & Z & l & Tx & Pm).
  destruct (O i _ _ _ Ed) as [Xn Xa].
  destruct (install_ok (s_mem s) (e_attrs e) l [] [] None false) as (t & -> & Sn & Pt & Wt).
  { exact Tx. } { cbn. eapply Permutation_NoDup; [apply Permutation_map; symmetry; exact Pm|exact N]. }
  { intros a A. apply Xa. eapply Permutation_in; [apply Permutation_map; exact Pm|exact A]. }
  { intros ? []. } { exact Logic.I. } { discriminate. } { auto. } { congruence. }
  cbn [app] in Sn, Pt, Wt. cbn [bind negb]. set (t' := match t with Some t0 => Some t0 | None => e_tab e end).
  assert (St' : seen (s_mem s) t' ats /\ points (s_mem s) t' (e_attrs e) /\ t' = t).
  { apply (seen_perm _ _ _ _ Pm) in Sn. destruct t as [t|]; [auto|]. unfold t'. enough (e_tab e = None) as -> by (cbn; auto).
    destruct (e_tab e) as [u|] eqn:U; [|reflexivity]. exfalso. destruct (C i e _ _ _ Ee Ed) as (a & A & B); [congruence|]. apply (Sn a A). exact B. }
  destruct St' as (S' & P' & Et). set (l1 := upd (s_elems s) i _). set (s1 := St (s_mem s) l1).
  assert (V1 : inv s1 d) by (apply put_tab_inv; assumption).
  assert (G : forall j, nth_error l1 j = if j =? i then Some (Elem (e_parent e) (e_name e) (e_attrs e) t') else nth_error (s_elems s) j).
  { intro j. apply (put_at_nth _ _ _ _ _ Ee). }
  assert (C1 : covered s1 d).
  { intros j e' p n ats' H E Hn. cbn in H. rewrite G in H. destruct (Nat.eqb_spec j i) as [->|D]; [|exact (C j e' p n ats' H E Hn)].
    injection H as <-. cbn in Hn. rewrite Ed in E. injection E as <- <- <-. rewrite Et in Hn.
    destruct (Wt Hn) as (a & A & B). exists a. split; [|exact B]. eapply Permutation_in; [apply Permutation_map; exact Pm|exact A]. }
  assert (T1 : tabs (S i) s1 d).
  { split; [apply V1|]. intros j e' x Lj H E. cbn in H. rewrite G in H. destruct (Nat.eqb_spec j i) as [->|D].
    - injection H as <-. rewrite Ed in E. injection E as <-. cbn. repeat split; auto.
    - apply (proj2 T); [lia|exact H|exact E]. }
  destruct (tables_ok _ s1 d T1 (S (length l1)) i) as (up & sc & E & Sc & R & Nd); [lia|exact I| |].
  { change l1 with (s_elems s1). rewrite (i_len s1 d V1). lia. }
  cbn [s_elems s1] in E. rewrite E. cbn [bind].
  assert (Hh : here d i <-> (name_ok sc (e_name e) /\ forall a, In a (map fst l) -> is_decl a \/ name_ok sc a)).
  { assert (Pi : forall a, In a (map fst l) <-> In a (map fst ats)) by (intro a; split; apply Permutation_in; apply Permutation_map; [|symmetry]; exact Pm).
    split.
    - intro H. destruct (H _ _ _ sc Ed Sc) as [A B]. split; [exact A|]. intros a X. apply B. apply Pi. exact X.
    - intros [A B] p n ats' s' E' S2. rewrite Ed in E'. injection E' as <- <- <-. rewrite <- (scope_det _ _ _ Sc _ S2). split; [exact A|]. intros a X. apply B. apply Pi. exact X. }
  destruct (name_fine_ok _ up sc (e_name e) R Xn) as (b & Eb & B). cbn [s_mem s1] in Eb. rewrite Eb. cbn [bind]. destruct b; cbn [negb].
  - destruct (attrs_fine_ok _ up sc (e_attrs e) l R Tx) as (b' & Eb' & B').
    { intros a A. apply Xa. eapply Permutation_in; [apply Permutation_map; exact Pm|exact A]. }
    cbn [s_mem s1] in Eb'. rewrite Eb'. cbn [bind]. exists s1, b'. split; [reflexivity|]. split; [exact V1|]. split; [exact C1|]. split; [exact T1|].
    rewrite Hh, B'. split; [|tauto]. intro H. split; [apply B; reflexivity|exact H].
  - exists s1, false. split; [reflexivity|]. split; [exact V1|]. split; [exact C1|]. split; [exact T1|]. rewrite Hh. split; [discriminate|]. intros [A _]. apply B. exact A.
Qed.
Lemma tabs_less k k' s d : k <= k' -> tabs k' s d -> tabs k s d.
Proof. intros L [A B]. split; [exact A|]. intros i e x I. apply B. lia. Qed.
Lemma validate_from_ok d : ordinary d -> forall todo i s, inv s d -> tabs i s d -> covered s d -> i + todo = length d ->
  exists s' b, validate_from todo i s = Ok (s', b) /\ inv s' d /\ covered s' d /\ (b = true -> tabs (length d) s' d) /\ (b = true <-> forall j, i <= j -> here d j).
Proof.
  intro O. induction todo as [|todo IH]; intros i s V T C L; cbn [validate_from].
  - exists s, true. split; [reflexivity|]. split; [exact V|]. split; [exact C|]. split; [intros _; replace (length d) with i by lia; exact T|]. split; [|reflexivity].
    intros _ j J p n ats sc E. assert (j < length d) by (apply nth_error_Some; congruence). lia.
  - destruct (validate_at_ok s d i V T C O ltac:(lia)) as (s1 & b & -> & V1 & C1 & T1 & B). cbn [bind]. destruct b.
    + destruct (IH (S i) s1 V1 T1 C1 ltac:(lia)) as (s2 & b & -> & V2 & C2 & T2 & B2). exists s2, b. split; [reflexivity|]. split; [exact V2|]. split; [exact C2|]. split; [exact T2|].
      rewrite B2. split; [|intros H j J; apply H; lia]. intros H j J. destruct (Nat.eq_dec j i) as [->|D]; [apply B; reflexivity|apply H; lia].
    + exists s1, false. split; [reflexivity|]. split; [exact V1|]. split; [exact C1|]. split; [discriminate|]. split; [discriminate|]. intro H. apply B. apply H. lia.
Qed.
Lemma validate_ok s d : inv s d -> covered s d -> ordinary d ->
  exists s' b, validate s = Ok (s', b) /\ inv s' d /\ covered s' d /\ (b = true -> tabs (length d) s' d) /\ (b = true <-> valid d).
Proof.
  intros V C O. unfold validate. destruct (validate_from_ok d O (length (s_elems s)) 0 s V) as (s' & b & E & V' & C' & T' & B).
  - split; [apply V|]. intros; lia.
  - exact C.
  - cbn. apply V.
  - exists s', b. split; [exact E|]. split; [exact V'|]. split; [exact C'|]. split; [exact T'|]. rewrite B. unfold valid, here. split.
    + intros H i p n ats sc. apply H. lia.
    + intros H j _ p n ats sc. apply H.
Qed.
