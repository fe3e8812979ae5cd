(** Proofs about the memory of attributes. *)
From Coq Require Import Permutation.
From Verif Require Import Prelude XmlSpec NsModel NsSpec NsProofs NsmemModel NsmemSpec.
Open Scope nat_scope.
Open Scope list_scope.

(** [s] is at [p] *)
Definition holds (m : mem) (p : nat) (s : bytes) : Prop := nth_error m p = Some (Some s).
Lemma holds_read m p s : holds m p s -> read m p = Ok s.
Proof. unfold holds, read. intros ->. reflexivity. Qed.
Lemma holds_lt m p s : holds m p s -> p < length m.
Proof. intro H. apply nth_error_Some. unfold holds in H. congruence. Qed.
Lemma holds_eq m p s s' : holds m p s -> holds m p s' -> s = s'.
Proof. unfold holds. congruence. Qed.
(** the memory [m'] has what [m] has at [p] *)
Definition same (m m' : mem) (p : nat) : Prop := nth_error m' p = nth_error m p.
Lemma holds_same m m' p s : same m m' p -> holds m p s -> holds m' p s.
Proof. unfold same, holds. congruence. Qed.
Lemma alloc_ok m s m' p : alloc m s = (m', p) -> p = length m /\ length m' = S (length m) /\ (forall q, q < length m -> same m m' q) /\ holds m' p s.
Proof.
  unfold alloc. intro E. injection E as <- <-. split; [reflexivity|]. split; [rewrite app_length; cbn; lia|]. split.
  - intros q Q. unfold same. apply nth_error_app1. exact Q.
  - unfold holds. rewrite nth_error_app2, Nat.sub_diag by lia. reflexivity.
Qed.
Lemma free_ok m p s : holds m p s -> exists m', free m p = Ok m' /\ length m' = length m /\ forall q, q <> p -> same m m' q.
Proof.
  intro H. unfold free. pose proof H as H'. unfold holds in H'. rewrite H'. eexists. split; [reflexivity|].
  assert (L := holds_lt _ _ _ H). split.
  - rewrite app_length. cbn [length]. rewrite firstn_length, skipn_length. lia.
  - intros q N. unfold same. destruct (Nat.lt_ge_cases q p) as [Q|Q].
    + rewrite nth_error_app1 by (rewrite firstn_length; lia). clear - Q. revert p m Q. induction q as [|q IH]; intros [|p] m Q; try lia; destruct m; cbn; try reflexivity. apply IH. lia.
    + rewrite nth_error_app2 by (rewrite firstn_length; lia). rewrite firstn_length. replace (Nat.min p (length m)) with p by lia.
      replace (q - p) with (S (q - S p)) by lia. cbn [nth_error].
      replace q with (S p + (q - S p)) at 2 by lia. generalize (q - S p) as k. clear. intro k. generalize (S p) as j. intro j. revert m. induction j as [|j IH]; intro m; [reflexivity|].
      destruct m; cbn; [destruct k; reflexivity|apply IH].
Qed.

(** ** the attributes of one element *)
Definition text (m : mem) (a : attr) (x : bytes * option bytes) : Prop := holds m (a_key a) (fst x) /\ exists v, snd x = Some v /\ holds m (a_val a) v.
Definition texts (m : mem) := Forall2 (text m).
Definition ptrs (l : list attr) : list nat := flat_map (fun a => [a_key a; a_val a]) l.
Lemma ptrs_in l a : In a l -> In (a_key a) (ptrs l) /\ In (a_val a) (ptrs l).
Proof. intro I. split; apply in_flat_map; exists a; cbn; auto. Qed.
Lemma ptrs_inv l p : In p (ptrs l) -> exists a, In a l /\ (p = a_key a \/ p = a_val a).
Proof. intro I. apply in_flat_map in I as (a & I & P). exists a. cbn in P. destruct P as [<-|[<-|[]]]; auto. Qed.
Lemma text_same m m' a x : same m m' (a_key a) -> same m m' (a_val a) -> text m a x -> text m' a x.
Proof. intros K V [Hk (v & E & Hv)]. split; [eapply holds_same; eassumption|]. exists v. split; [exact E|]. eapply holds_same; eassumption. Qed.
Lemma texts_same m m' l ats : (forall p, In p (ptrs l) -> same m m' p) -> texts m l ats -> texts m' l ats.
Proof.
  intros F T. induction T as [|a x l ats X T IH]; constructor.
  - apply (text_same m); [apply F|apply F|exact X]; cbn; auto.
  - apply IH. intros p I. apply F. cbn. auto.
Qed.
Lemma texts_lt m l ats p : texts m l ats -> In p (ptrs l) -> p < length m.
Proof.
  intros T I. induction T as [|a x l ats [K (v & _ & V)] T IH]; [contradiction|].
  cbn in I. destruct I as [<-|[<-|I]]; [eapply holds_lt; eassumption|eapply holds_lt; eassumption|apply IH; exact I].
Qed.
Lemma texts_in m l ats a : texts m l ats -> In a l -> exists x, In x ats /\ text m a x.
Proof. intro T. induction T as [|b x l ats X T IH]; intro I; [contradiction|]. destruct I as [<-|I]; [exists x; cbn; auto|]. destruct (IH I) as (y & Y & H). exists y. cbn. auto. Qed.
Lemma texts_of m l ats x : texts m l ats -> In x ats -> exists a, In a l /\ text m a x.
Proof. intro T. induction T as [|b y l ats X T IH]; intro I; [contradiction|]. destruct I as [<-|I]; [exists b; cbn; auto|]. destruct (IH I) as (a & Y & H). exists a. cbn. auto. Qed.
Lemma texts_length m l ats : texts m l ats -> length l = length ats.
Proof. intro T. induction T; cbn; congruence. Qed.

Lemma has_ok m l ats n : texts m l ats -> has m l n = Ok (existsb (fun x => bytes_eqb (fst x) n) ats).
Proof.
  intro T. induction T as [|a x l ats [K _] T IH]; [reflexivity|]. cbn [has existsb]. rewrite (holds_read _ _ _ K). cbn [bind].
  destruct (bytes_eqb (fst x) n); [reflexivity|exact IH].
Qed.
Lemma drop_attr_ok m a x : text m a x -> a_key a <> a_val a ->
  exists m', drop_attr m a = Ok m' /\ length m' = length m /\ forall p, p <> a_key a -> p <> a_val a -> same m m' p.
Proof.
  intros [K (v & _ & V)] N. unfold drop_attr. destruct (a_fac a); [exists m; repeat split; intros; reflexivity|].
  destruct (free_ok m _ _ K) as (m1 & -> & L1 & F1). cbn [bind].
  assert (V1 : holds m1 (a_val a) v) by (eapply holds_same; [apply F1; auto|exact V]).
  destruct (free_ok m1 _ _ V1) as (m2 & -> & L2 & F2). exists m2. split; [reflexivity|]. split; [congruence|].
  intros p P Q. unfold same. rewrite (F2 p Q). apply F1. exact P.
Qed.
Lemma drop_attrs_ok l : forall m ats, texts m l ats -> NoDup (ptrs l) ->
  exists m', drop_attrs m l = Ok m' /\ length m' = length m /\ forall p, ~ In p (ptrs l) -> same m m' p.
Proof.
  induction l as [|a l IH]; intros m ats T N; [exists m; repeat split; intros; reflexivity|].
  inversion T as [|? x ? ats' X T' E1 E2]; subst. cbn in N. inversion N as [|? ? Na Nl]; subst. inversion Nl as [|? ? Nb Nr]; subst.
  destruct (drop_attr_ok m a x X) as (m1 & E & L1 & F1). { intro E. apply Na. left. auto. }
  cbn [drop_attrs]. rewrite E. cbn [bind].
  assert (T1 : texts m1 l ats').
  { apply (texts_same m); [|exact T']. intros p I. apply F1; intros ->; [apply Na; right; exact I|apply Nb; exact I]. }
  destruct (IH m1 ats' T1 Nr) as (m2 & -> & L2 & F2). exists m2. split; [reflexivity|]. split; [congruence|].
  intros p I. cbn in I. unfold same. rewrite (F2 p); [|tauto]. apply F1; intros ->; tauto.
Qed.

(** axl_node_set_attribute *)
Definition added (n v : bytes) (ats : list (bytes * option bytes)) : list (bytes * option bytes) := match n with [] => ats | _ => add n v ats end.
Lemma put_ok m l ats fac n v : texts m l ats -> NoDup (ptrs l) ->
  exists m' l', put m l fac n v = Ok (m', l') /\ length m <= length m' /\ (forall p, p < length m -> same m m' p) /\
    texts m' l' (added n v ats) /\ NoDup (ptrs l') /\ (forall p, In p (ptrs l') -> In p (ptrs l) \/ length m <= p) /\ (forall a, In a l -> In a l').
Proof.
  intros T N. unfold put, added, add. destruct n as [|c n]; [exists m, l; repeat split; auto; intros; reflexivity|].
  set (name := c :: n). destruct (alloc m name) as [m1 k] eqn:A1. destruct (alloc m1 v) as [m2 w] eqn:A2.
  apply alloc_ok in A1 as (Ek & L1 & F1 & Hk). apply alloc_ok in A2 as (Ew & L2 & F2 & Hw). rewrite L1 in *.
  assert (F : forall p, p < length m -> same m m2 p).
  { intros p P. unfold same. rewrite (F2 p) by lia. apply F1. exact P. }
  assert (T2 : texts m2 l ats). { apply (texts_same m); [|exact T]. intros p P. apply F. eapply texts_lt; eassumption. }
  assert (X : text m2 (Attr k w fac) (name, Some v)).
  { split; cbn; [eapply holds_same; [apply F2; lia|exact Hk]|]. exists v. split; [reflexivity|exact Hw]. }
  rewrite (has_ok m2 l ats name T2). cbn [bind]. destruct (existsb _ ats).
  - destruct (drop_attr_ok m2 _ _ X) as (m3 & -> & L3 & F3); [cbn; lia|]. cbn [bind]. exists m3, l. split; [reflexivity|]. split; [lia|].
    assert (F' : forall p, p < length m -> same m m3 p). { intros p P. unfold same. rewrite (F3 p) by (cbn; lia). apply F. exact P. }
    split; [exact F'|]. split; [apply (texts_same m); [|exact T]; intros p P; apply F'; eapply texts_lt; eassumption|]. split; [exact N|]. split; [auto|auto].
  - eexists m2, _. split; [reflexivity|]. split; [lia|]. split; [exact F|]. split; [constructor; assumption|]. split.
    + cbn. assert (B : forall p, In p (ptrs l) -> p < length m) by (intros p P; eapply texts_lt; eassumption).
      constructor; [|constructor; [|exact N]].
      * intros [E|I]; [lia|]. apply B in I. lia.
      * intro I. apply B in I. lia.
    + split; [|intros a I; right; exact I]. cbn. intros p [<-|[<-|I]]; [right; lia|right; lia|left; exact I].
Qed.
Lemma put_calls m l ats fac n v m' l' : texts m l ats -> NoDup (ptrs l) -> put m l fac n v = Ok (m', l') ->
  length m <= length m' /\ (forall p, p < length m -> same m m' p) /\
  texts m' l' (added n v ats) /\ NoDup (ptrs l') /\ (forall p, In p (ptrs l') -> In p (ptrs l) \/ length m <= p) /\ (forall a, In a l -> In a l').
Proof. intros T N E. destruct (put_ok m l ats fac n v T N) as (m1 & l1 & E1 & R). rewrite E in E1. injection E1 as <- <-. exact R. Qed.

(** ** removing *)
Lemma unlink_ok m l ats n : texts m l ats ->
  if existsb (fun x => bytes_eqb (fst x) n) ats then
    exists a x l1 l2 r1 r2, unlink m l n = Ok (Some (a, l1 ++ l2)) /\ l = l1 ++ a :: l2 /\ ats = r1 ++ x :: r2 /\ texts m l1 r1 /\ text m a x /\ fst x = n /\ texts m l2 r2
  else unlink m l n = Ok None.
Proof.
  intro T. induction T as [|a x l ats X T IH]; [reflexivity|]. cbn [existsb unlink]. rewrite (holds_read _ _ _ (proj1 X)). cbn [bind].
  destruct (bytes_eqb (fst x) n) eqn:E; cbn [orb].
  - apply bytes_eqb_eq in E. exists a, x, [], l, [], ats. exact (conj eq_refl (conj eq_refl (conj eq_refl (conj (Forall2_nil _) (conj X (conj E T)))))).
  - destruct (existsb _ ats).
    + destruct IH as (b & y & l1 & l2 & r1 & r2 & -> & -> & -> & T1 & Y & F & T2). cbn [bind]. exists b, y, (a :: l1), l2, (x :: r1), r2.
      exact (conj eq_refl (conj eq_refl (conj eq_refl (conj (Forall2_cons _ _ X T1) (conj Y (conj F T2)))))).
    + rewrite IH. reflexivity.
Qed.
Lemma added_new n v ats : n <> [] -> ~ In n (map fst ats) -> added n v ats = (n, Some v) :: ats.
Proof.
  intros N I. unfold added, add. destruct n as [|c n]; [contradiction|]. match goal with |- (if ?b then _ else _) = _ => destruct b eqn:E end; [|reflexivity].
  apply existsb_exists in E as (x & X & Y). apply bytes_eqb_eq in Y. exfalso. apply I. rewrite <- Y. apply in_map. exact X.
Qed.
Lemma reinsert_ok old : forall m l olds ats, texts m old olds -> texts m l ats -> NoDup (ptrs l) -> NoDup (map fst (olds ++ ats)) -> ~ In [] (map fst olds) ->
  exists m' l' ats', reinsert m old l = Ok (m', l') /\ length m <= length m' /\ (forall p, p < length m -> same m m' p) /\
    texts m' l' ats' /\ Permutation ats' (olds ++ ats) /\ NoDup (ptrs l') /\ (forall p, In p (ptrs l') -> In p (ptrs l) \/ length m <= p).
Proof.
  induction old as [|a old IH]; intros m l olds ats To Tl N D Z.
  - inversion To; subst. exists m, l, ats. repeat split; auto; intros; reflexivity.
  - inversion To as [|? x ? olds' X To' E1 E2]; subst. destruct x as [k o]. destruct X as [K (v & Ev & V)]. cbn in K, Ev. subst o.
    cbn [reinsert]. rewrite (holds_read _ _ _ K), (holds_read _ _ _ V). cbn [bind].
    cbn [map fst app] in D, Z. inversion D as [|? ? D1 D2]; subst.
    destruct (put_ok m l ats false k v Tl N) as (m1 & l1 & -> & L1 & F1 & T1 & N1 & P1 & _). cbn [bind].
    rewrite added_new in T1; [|intros ->; apply Z; left; reflexivity|intro I; apply D1; rewrite map_app; apply in_or_app; auto].
    assert (To1 : texts m1 old olds'). { apply (texts_same m); [|exact To']. intros p P. apply F1. eapply texts_lt; eassumption. }
    destruct (IH m1 l1 olds' ((k, Some v) :: ats) To1 T1 N1) as (m2 & l2 & ats2 & E2 & L2 & F2 & T2 & P2 & N2 & Q2).
    { eapply Permutation_NoDup; [|exact D]. rewrite !map_app. cbn [map fst]. apply Permutation_middle. }
    { intro I. apply Z. right. exact I. }
    exists m2, l2, ats2. split; [exact E2|]. split; [lia|]. split.
    { intros p P. unfold same. rewrite (F2 p) by lia. apply F1. exact P. }
    split; [exact T2|]. split. { rewrite P2. symmetry. apply Permutation_middle. }
    split; [exact N2|]. intros p P. destruct (Q2 p P) as [Q|Q]; [|right; lia]. apply P1 in Q. exact Q.
Qed.
Lemma del_notin n ats : ~ In n (map fst ats) -> del n ats = ats.
Proof.
  unfold del. induction ats as [|x ats IH]; intro I; [reflexivity|]. cbn [filter]. destruct (bytes_eqb (fst x) n) eqn:E; cbn [negb].
  - apply bytes_eqb_eq in E. exfalso. apply I. left. exact E.
  - rewrite IH; [reflexivity|]. intro J. apply I. right. exact J.
Qed.
Lemma del_mid n r1 x r2 : fst x = n -> NoDup (map fst (r1 ++ x :: r2)) -> del n (r1 ++ x :: r2) = r1 ++ r2.
Proof.
  intros E D. unfold del. rewrite filter_app. cbn [filter]. rewrite E, bytes_eqb_refl. cbn [negb].
  rewrite map_app in D. cbn [map] in D. apply NoDup_remove_2 in D. rewrite E in D. rewrite in_app_iff in D.
  f_equal; apply del_notin; tauto.
Qed.
Lemma ptrs_app l1 l2 : ptrs (l1 ++ l2) = ptrs l1 ++ ptrs l2.
Proof. apply flat_map_app. Qed.
Lemma NoDup_mid {A} (l1 l2 l3 : list A) : NoDup (l1 ++ l2 ++ l3) -> NoDup (l1 ++ l3) /\ NoDup l2 /\ forall x, In x l2 -> ~ In x (l1 ++ l3).
Proof.
  intro N. induction l2 as [|a l2 IH]; [cbn in *; repeat split; [exact N|constructor|intros ? []]|].
  cbn in N. pose proof (NoDup_remove_1 _ _ _ N) as N1. pose proof (NoDup_remove_2 _ _ _ N) as N2. destruct (IH N1) as (A1 & A2 & A3).
  rewrite !in_app_iff in N2. split; [exact A1|]. split; [constructor; [tauto|exact A2]|]. intros x [<-|I]; [rewrite in_app_iff; tauto|apply A3; exact I].
Qed.
Lemma take_ok m l ats n : texts m l ats -> NoDup (ptrs l) -> NoDup (map fst ats) -> ~ In [] (map fst ats) ->
  exists m' l' ats', take m l n = Ok (m', l') /\ length m <= length m' /\ (forall p, p < length m -> ~ In p (ptrs l) -> same m m' p) /\
    texts m' l' ats' /\ Permutation ats' (del n ats) /\ NoDup (ptrs l') /\ (forall p, In p (ptrs l') -> In p (ptrs l) \/ length m <= p) /\
    ((In n (map fst ats) -> length ats <> 11) -> forall a k, In a l -> holds m (a_key a) k -> k <> n -> In a l' /\ same m m' (a_key a) /\ same m m' (a_val a)).
Proof.
  intros T N D Z. unfold take. pose proof (unlink_ok m l ats n T) as U. destruct (existsb _ ats) eqn:E.
  - destruct U as (a & x & l1 & l2 & r1 & r2 & -> & -> & -> & T1 & X & Fx & T2). cbn [bind].
    rewrite ptrs_app in N. cbn [ptrs flat_map] in N. fold (ptrs l2) in N. destruct (NoDup_mid _ _ _ N) as (N1 & Na & Nx).
    destruct (drop_attr_ok m a x X) as (m1 & -> & L1 & F1). { inversion Na as [|? ? B _]; subst. intro Q. apply B. left. auto. }
    cbn [bind].
    assert (F1' : forall p, In p (ptrs l1 ++ ptrs l2) -> same m m1 p).
    { intros p P. apply F1; intros ->; [apply (Nx (a_key a)); [cbn; auto|exact P]|apply (Nx (a_val a)); [cbn; auto|exact P]]. }
    assert (T12 : texts m1 (l1 ++ l2) (r1 ++ r2)).
    { apply (texts_same m); [rewrite ptrs_app; exact F1'|]. apply Forall2_app; assumption. }
    rewrite (del_mid n r1 x r2 Fx D).
    assert (D' : NoDup (map fst (r1 ++ r2))). { rewrite map_app in *. cbn [map] in D. eapply NoDup_remove_1; exact D. }
    assert (I : In n (map fst (r1 ++ x :: r2))). { rewrite <- Fx. apply in_map. apply in_or_app. right. left. reflexivity. }
    assert (LL : length (l1 ++ a :: l2) = length (r1 ++ x :: r2)).
    { rewrite !app_length. cbn [length]. rewrite (texts_length _ _ _ T1), (texts_length _ _ _ T2). reflexivity. }
    destruct (Nat.eqb_spec (length (l1 ++ a :: l2)) 11) as [E11|E11].
    + destruct (reinsert_ok (l1 ++ l2) m1 [] (r1 ++ r2) [] T12) as (m2 & l' & ats' & -> & L2 & F2 & Tl & Pl & Nl & Ql).
      { constructor. } { constructor. } { rewrite app_nil_r. exact D'. }
      { intro J. apply Z. rewrite map_app in *. cbn [map]. apply in_app_iff in J. apply in_app_iff. cbn [In]. tauto. }
      cbn [bind].
      assert (T12' : texts m2 (l1 ++ l2) (r1 ++ r2)).
      { apply (texts_same m1); [|exact T12]. intros p P. apply F2. eapply texts_lt; eassumption. }
      destruct (drop_attrs_ok (l1 ++ l2) m2 _ T12') as (m3 & -> & L3 & F3). { rewrite ptrs_app. exact N1. }
      cbn [bind]. exists m3, l', ats'. split; [reflexivity|]. split; [lia|]. split.
      { intros p P Q. rewrite ptrs_app in Q. cbn [ptrs flat_map] in Q. fold (ptrs l2) in Q. rewrite !in_app_iff in Q. cbn [In] in Q.
        unfold same. rewrite (F3 p) by (rewrite ptrs_app, in_app_iff; tauto). rewrite (F2 p) by lia. apply F1; intros ->; tauto. }
      split. { apply (texts_same m2); [|exact Tl]. intros p P. apply F3. destruct (Ql p P) as [[]|Q]. intro R. apply (texts_lt _ _ _ _ T12) in R. lia. }
      split; [rewrite app_nil_r in Pl; exact Pl|]. split; [exact Nl|]. split.
      { intros p P. right. destruct (Ql p P) as [[]|Q]. lia. }
      intro C. exfalso. apply C; [exact I|congruence].
    + exists m1, (l1 ++ l2), (r1 ++ r2). split; [reflexivity|]. split; [lia|]. split.
      { intros p P Q. rewrite ptrs_app in Q. cbn [ptrs flat_map] in Q. rewrite !in_app_iff in Q. cbn [In] in Q. apply F1; intros ->; tauto. }
      split; [exact T12|]. split; [reflexivity|]. split; [rewrite ptrs_app; exact N1|]. split.
      { intros p P. left. rewrite !ptrs_app in *. cbn [ptrs flat_map]. apply in_app_iff in P. rewrite !in_app_iff. tauto. }
      intros _ b k B Hk Nk. apply in_app_or in B. cbn [In] in B.
      assert (B' : In b (l1 ++ l2)).
      { apply in_or_app. destruct B as [B|[<-|B]]; [auto| |auto]. exfalso. apply Nk. rewrite <- Fx. eapply holds_eq; [exact Hk|apply X]. }
      split; [exact B'|]. pose proof (ptrs_in _ _ B') as [P Q]. rewrite ptrs_app in P, Q. split; apply F1'; assumption.
  - rewrite U. cbn [bind]. exists m, l, ats. repeat split; auto; try (intros; reflexivity).
    rewrite del_notin; [reflexivity|]. intro I. apply in_map_iff in I as (x & Fx & I). enough (true = false) by discriminate. rewrite <- E. symmetry. apply existsb_exists.
    exists x. split; [exact I|]. apply bytes_eqb_eq. exact Fx.
Qed.
