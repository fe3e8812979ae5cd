(** Proofs about calls on documents with tables. *)
From Coq Require Import Permutation.
From Verif Require Import Prelude XmlSpec NsModel NsSpec NsProofs NsmemModel NsmemSpec NsmemProofs NsmemProofs2 NsmemProofs3.
Open Scope nat_scope.
Open Scope list_scope.

Lemma added_in n v ats x : In x (added n v ats) -> In x ats \/ (x = (n, Some v) /\ n <> []).
Proof.
  unfold added, add. destruct n as [|c n]; [auto|]. match goal with |- context [if ?b then _ else _] => destruct b end; [auto|]. intros [<-|I]; [right; split; [reflexivity|discriminate]|auto].
Qed.
Lemma added_old n v ats x : In x ats -> In x (added n v ats).
Proof. unfold added, add. destruct n as [|c n]; [auto|]. match goal with |- context [if ?b then _ else _] => destruct b end; [auto|]. intro. right. assumption. Qed.
Lemma added_nodup n v ats : NoDup (map fst ats) -> NoDup (map fst (added n v ats)).
Proof.
  intro N. destruct n as [|c n]; [exact N|]. destruct (in_dec (list_eq_dec ascii_dec) (c :: n) (map fst ats)) as [I|I].
  - unfold added, add. match goal with |- context [if ?b then _ else _] => destruct b eqn:E end; [exact N|]. cbn. constructor; [|exact N]. intro J.
    apply in_map_iff in J as (x & F & J). enough (true = false) by discriminate. rewrite <- E. symmetry. apply existsb_exists. exists x. split; [exact J|]. apply bytes_eqb_eq. exact F.
  - rewrite added_new; [|discriminate|exact I]. cbn. constructor; assumption.
Qed.
Lemma fst_in {A B} (l : list (A * B)) x : In x (map fst l) -> exists y, In (x, y) l.
Proof. intro I. apply in_map_iff in I as ([a b] & <- & I). exists b. exact I. Qed.
Lemma in_fst {A B} (l : list (A * B)) x y : In (x, y) l -> In x (map fst l).
Proof. intro I. change x with (fst (x, y)). apply in_map. exact I. Qed.
Lemma del_in n ats x : In x (del n ats) <-> In x ats /\ fst x <> n.
Proof. unfold del. rewrite filter_In, negb_true_iff, bytes_eqb_neq. reflexivity. Qed.
Lemma map_filter_nodup {A B} (f : A -> B) g l : NoDup (map f l) -> NoDup (map f (filter g l)).
Proof.
  induction l as [|x l IH]; intro N; [constructor|]. cbn in *. inversion N as [|? ? A1 A2]; subst. destruct (g x); [|auto]. cbn. constructor; [|auto].
  intro I. apply A1. apply in_map_iff in I as (y & E & I). apply filter_In in I as [I _]. rewrite <- E. apply in_map. exact I.
Qed.
Lemma del_nodup n ats : NoDup (map fst ats) -> NoDup (map fst (del n ats)).
Proof. apply map_filter_nodup. Qed.
Lemma texts_perm_length m l x ats : texts m l x -> Permutation x ats -> length l = length ats.
Proof. intros T P. rewrite (texts_length _ _ _ T). apply Permutation_length. exact P. Qed.

(** ** tables stay *)
Lemma same_refl m p : same m m p.
Proof. reflexivity. Qed.
Lemma kept m m' t ats l l' : seen m t ats -> points m t l ->
  (forall a k, In a l -> holds m (a_key a) k -> decl_like k -> In a l' /\ same m m' (a_key a) /\ same m m' (a_val a)) ->
  seen m' t ats /\ points m' t l'.
Proof.
  destruct t as [t|]; [|auto]. intros (S1 & S2 & S3) [P1 P2] K.
  assert (KP : forall k v, In (k, v) (t_pre t) -> same m m' k /\ same m m' v /\ exists a, In a l' /\ a_key a = k /\ a_val a = v).
  { intros k v I. destruct (S1 k v I) as (p & val & Hk & _). destruct (P1 k v I) as (a & A & <- & <-). destruct (K a _ A Hk (decl_decl_like p)) as (B & C & D). split; [exact C|]. split; [exact D|]. exists a. auto. }
  split; [split; [|split]|split].
  - intros k v I. destruct (KP k v I) as (A & B & _). destruct (S1 k v I) as (p & val & Hk & Hv & J). exists p, val. split; [eapply holds_same; eassumption|]. split; [eapply holds_same; eassumption|exact J].
  - intros p I. destruct (S2 p I) as (k & v & J & H). exists k, v. split; [exact J|]. destruct (KP k v J) as (A & _). eapply holds_same; eassumption.
  - destruct (t_def t) as [v|]; [|exact S3]. destruct S3 as (val & H & I). destruct P2 as (a & A & <- & Hd). destruct (K a _ A Hd default_decl_like) as (_ & _ & D). exists val. split; [eapply holds_same; eassumption|exact I].
  - intros k v I. apply (KP k v I).
  - destruct (t_def t) as [v|]; [|exact P2]. destruct P2 as (a & A & E & Hd). destruct (K a _ A Hd default_decl_like) as (B & C & _). exists a. split; [exact B|]. split; [exact E|]. eapply holds_same; eassumption.
Qed.
(** only declarations matter *)
Lemma seen_decls m t ats ats' : (forall x, decl_like (fst x) -> (In x ats <-> In x ats')) -> seen m t ats -> seen m t ats'.
Proof.
  intros I. assert (J : forall a, decl_like a -> (In a (map fst ats) <-> In a (map fst ats'))).
  { intros a A. split; intro H; apply fst_in in H as (y & H); apply (in_fst _ _ y); apply I; auto. }
  destruct t as [t|]; cbn [seen].
  - intros (A & B & C). split. { intros k v K. destruct (A k v K) as (p & val & X & Y & Z). exists p, val. split; [exact X|]. split; [exact Y|]. apply I; [apply decl_decl_like|exact Z]. }
    split. { intros p K. apply B. apply J; [apply decl_decl_like|exact K]. }
    destruct (t_def t).
    + destruct C as (val & X & Y). exists val. split; [exact X|]. apply I; [apply default_decl_like|exact Y].
    + intro K. apply C. apply J; [apply default_decl_like|exact K].
  - intros A a K D. apply (A a); [apply J; assumption|exact D].
Qed.
Lemma step_tabs s d d' i e m' l' g : inv s d -> tabs (length d') s d' -> nth_error (s_elems s) i = Some e -> step (s_mem s) m' (e_attrs e) l' ->
  (forall a k, In a (e_attrs e) -> holds (s_mem s) (a_key a) k -> decl_like k -> In a l' /\ same (s_mem s) m' (a_key a) /\ same (s_mem s) m' (a_val a)) ->
  (forall ats, NoDup (map fst ats) -> NoDup (map fst (g ats))) -> (forall ats x, decl_like (fst x) -> (In x ats <-> In x (g ats))) ->
  tabs (length (at_ d' i g)) (St m' (upd (s_elems s) i (Elem (e_parent e) (e_name e) l' (e_tab e)))) (at_ d' i g).
Proof.
  intros V [L T] He P K N D. rewrite at_length. change upd with (@put_at elem). split; cbn [s_elems s_mem].
  - rewrite at_length, (put_at_length _ _ _ _ He). exact L.
  - intros j e' [[p n] ats] J H E. rewrite (put_at_nth _ _ _ _ _ He) in H. apply at_nth in E as [[Ne E]|[-> (ats0 & E & ->)]].
    + destruct (Nat.eqb_spec j i) as [->|_]; [contradiction|]. destruct (T j e' _ J H E) as (A & B & C & Nd & S & Po). 
      destruct (kept (s_mem s) m' (e_tab e') ats (e_attrs e') (e_attrs e') S Po) as [S' Po'].
      { intros a k I _ _. assert (Q : forall q, In q (ptrs (e_attrs e')) -> same (s_mem s) m' q).
        { intros q Q. apply (p_frame _ _ _ _ P); [eapply ptr_lt; eassumption|]. apply (apart (s_elems s) j i e' e); auto. apply V. }
        destruct (ptrs_in _ _ I) as [X Y]. auto. }
      cbn. repeat split; auto.
    + rewrite Nat.eqb_refl in H. injection H as <-. destruct (T i e _ J He E) as (A & B & C & Nd & S & Po).
      destruct (kept (s_mem s) m' (e_tab e) ats0 (e_attrs e) l' S Po K) as [S' Po'].
      cbn. repeat split; auto. apply (seen_decls _ _ ats0); [apply D|exact S'].
Qed.

(** ** calls *)
Lemma new_ok s d p n : inv s d -> exists s', act s (New p n) = Ok s' /\ inv s' (edit d (New p n)) /\
  (covered s d -> covered s' (edit d (New p n))) /\
  (forall d', tabs (length d') s d' -> tabs (length (edit d' (New p n))) s' (edit d' (New p n))).
Proof.
  intro V. cbn [act edit]. destruct s as [m l]. cbn [s_elems s_mem]. pose proof (i_len _ _ V) as L. cbn in L. destruct l as [|e0 l].
  - destruct d as [|x d]; [|discriminate]. eexists. split; [reflexivity|]. split; [|split].
    + constructor; cbn; [reflexivity| |constructor]. intros [|i] e q nm ats H E; cbn in H, E; [|destruct i; discriminate]. injection H as <-. injection E as <- <- <-.
      cbn. repeat split; try discriminate; try (intros []); try constructor. exists []. split; constructor.
    + intros _ [|i] e q nm ats H E X; cbn in H; [|destruct i; discriminate]. injection H as <-. cbn in X. congruence.
    + intros d' [Ld _]. cbn in Ld. destruct d' as [|]; [|discriminate]. split; [reflexivity|]. cbn. intros [|i] e x J H E; cbn in H, E; [|destruct i; discriminate]. injection H as <-. injection E as <-.
      cbn. repeat split; try discriminate; try constructor; intros ? [].
  - destruct d as [|x d]; [discriminate|]. set (l' := e0 :: l) in *. set (d0 := x :: d) in *. rewrite <- L. destruct (Nat.ltb_spec p (length l')) as [Q|Q].
    + eexists. split; [reflexivity|]. split; [|split].
      * constructor; cbn [s_elems s_mem].
        -- rewrite !app_length. cbn [length]. congruence.
        -- intros i e q nm ats H E. destruct (Nat.lt_ge_cases i (length l')) as [I|I].
           ++ rewrite nth_error_app1 in H by exact I. rewrite nth_error_app1 in E by (rewrite <- L; exact I). apply (i_at _ _ V i e q nm ats H E).
           ++ rewrite nth_error_app2 in H by exact I. rewrite nth_error_app2 in E by (rewrite <- L; exact I). rewrite <- L in E. destruct (i - length l') as [|k] eqn:Dk; [|destruct k; discriminate].
              cbn in H, E. injection H as <-. injection E as <- <- <-. cbn. repeat split; auto; try constructor; [intros j Ej; injection Ej as <-; lia|]. exists []. split; constructor.
        -- unfold all_ptrs. rewrite flat_map_app. cbn [flat_map e_attrs ptrs]. rewrite !app_nil_r. apply V.
      * intros C i e q nm ats H E X. cbn [s_elems] in H. destruct (Nat.lt_ge_cases i (length l')) as [I|I].
        -- rewrite nth_error_app1 in H by exact I. rewrite nth_error_app1 in E by (rewrite <- L; exact I). apply (C i e q nm ats H E X).
        -- rewrite nth_error_app2 in H by exact I. destruct (i - length l') as [|k]; [|destruct k; discriminate]. injection H as <-. cbn in X. congruence.
      * intros d' [Ld T]. cbn [s_elems s_mem] in Ld, T. destruct d' as [|y d']; [discriminate|]. set (d1 := y :: d') in *. rewrite <- Ld. destruct (Nat.ltb_spec p (length l')) as [_|W]; [|lia].
        split; cbn [s_elems s_mem]; [rewrite !app_length; cbn [length]; congruence|]. intros i e z J H E. destruct (Nat.lt_ge_cases i (length l')) as [I|I].
        -- rewrite nth_error_app1 in H by exact I. rewrite nth_error_app1 in E by (rewrite <- Ld; exact I). apply (T i e z); [lia|exact H|exact E].
        -- rewrite nth_error_app2 in H by exact I. rewrite nth_error_app2 in E by (rewrite <- Ld; exact I). rewrite <- Ld in E. destruct (i - length l') as [|k] eqn:Dk; [|destruct k; discriminate].
           injection H as <-. injection E as <-. cbn. repeat split; try constructor; [intros j Ej; injection Ej as <-; lia|intros ? []].
    + exists (St m l'). split; [reflexivity|]. split; [exact V|]. split; [auto|]. intros d' T. pose proof (proj1 T) as Ld. cbn in Ld. destruct d' as [|y d']; [discriminate|]. cbn [length] in Ld.
      replace (p <? length (y :: d')) with false; [exact T|]. symmetry. apply Nat.ltb_ge. cbn [length]. cbn [length] in Q. unfold l' in Q. cbn [length] in Q. lia.
Qed.
Lemma covered_at s d i e p n ats f m' l' : covered s d -> nth_error (s_elems s) i = Some e -> nth_error d i = Some (p, n, ats) ->
  (forall a, In a (map fst ats) -> decl_like a -> In a (map fst (f ats))) ->
  covered (St m' (upd (s_elems s) i (Elem (e_parent e) (e_name e) l' (e_tab e)))) (at_ d i f).
Proof.
  intros C H E F j e' q nm ats' H' E' X. cbn [s_elems] in H'. change upd with (@put_at elem) in H'. rewrite (put_at_nth _ _ _ _ _ H) in H'.
  apply at_nth in E' as [[Ne E']|[-> (ats0 & E' & ->)]].
  - destruct (Nat.eqb_spec j i) as [->|_]; [contradiction|]. exact (C j e' q nm ats' H' E' X).
  - rewrite Nat.eqb_refl in H'. injection H' as <-. rewrite E in E'. injection E' as <- <- <-. destruct (C i e p n ats H E X) as (a & A & B). exists a. auto.
Qed.
Lemma existsb_perm {A} f (l l' : list A) : Permutation l l' -> existsb f l = existsb f l'.
Proof. induction 1; cbn; [reflexivity|congruence| |congruence]. rewrite !orb_assoc, (orb_comm (f y)). reflexivity. Qed.
Lemma added_perm n v l l' : Permutation l l' -> Permutation (added n v l) (added n v l').
Proof.
  intro P. unfold added, add. destruct n as [|c n]; [exact P|]. rewrite (existsb_perm _ _ _ P). match goal with |- context [if ?b then _ else _] => destruct b end; [exact P|]. constructor. exact P.
Qed.
Lemma set_ok s d i fac n v : inv s d -> exists s', on s i (fun m l => put m l fac n v) = Ok s' /\ inv s' (at_ d i (added n v)) /\
  (covered s d -> covered s' (at_ d i (added n v))) /\
  (forall d', tabs (length d') s d' -> tabs (length d') s' d') /\
  (forall d', ~ decl_like n -> tabs (length d') s d' -> tabs (length (at_ d' i (added n v))) s' (at_ d' i (added n v))).
Proof.
  intro V. unfold on. destruct (nth_error (s_elems s) i) as [e|] eqn:He.
  - destruct (elem_there s d i e V He) as (ats & Ed). destruct (i_at s d V i e _ _ _ He Ed) as (_ & _ & _ & Nd & Z & l & T & Pm).
    destruct (put_ok (s_mem s) (e_attrs e) l fac n v T (elem_own _ _ _ (i_own s d V) He)) as (m' & l' & -> & L & F & T' & N' & Q' & I'). cbn [bind].
    eexists. split; [reflexivity|].
    assert (P : step (s_mem s) m' (e_attrs e) l') by (constructor; auto).
    assert (K : forall a k, In a (e_attrs e) -> holds (s_mem s) (a_key a) k -> decl_like k -> In a l' /\ same (s_mem s) m' (a_key a) /\ same (s_mem s) m' (a_val a)).
    { intros a k A _ _. destruct (ptrs_in _ _ A) as [X Y]. split; [apply I'; exact A|]. split; apply F; eapply texts_lt; eassumption. }
    split; [|split; [|split]].
    + eapply (step_inv s d i e); try eassumption; [apply added_perm; exact Pm|apply added_nodup; exact Nd|].
      intro I. apply fst_in in I as (y & I). apply added_in in I as [I|[I N0]]; [apply Z; eapply in_fst; exact I|congruence].
    + intro C. eapply covered_at; [exact C|exact He|exact Ed|]. intros a A _. apply fst_in in A as (y & A). apply (in_fst _ _ y). apply added_old. exact A.
    + intros d' Td. rewrite <- (at_id d' i (fun x => x)) by reflexivity. eapply (step_tabs s d d' i e); try eassumption; auto. intros; reflexivity.
    + intros d' Dn Td. eapply (step_tabs s d d' i e); try eassumption; [intros; apply added_nodup; assumption|].
      intros ats0 x Dx. split; [apply added_old|]. intro I. apply added_in in I as [I|[-> _]]; [exact I|]. contradiction.
  - exists s. assert (En : nth_error d i = None). { apply nth_error_None. rewrite <- (i_len s d V). apply nth_error_None. exact He. }
    rewrite !at_none by exact En. split; [reflexivity|]. split; [exact V|]. split; [auto|]. split; [auto|]. intros d' _ Td.
    rewrite at_none; [exact Td|]. apply nth_error_None. rewrite <- (proj1 Td). apply nth_error_None. exact He.
Qed.
Lemma del_perm n l l' : Permutation l l' -> Permutation (del n l) (del n l').
Proof.
  unfold del. induction 1; cbn [filter]; [constructor| | |etransitivity; eassumption].
  - destruct (negb _); [constructor; assumption|assumption].
  - destruct (negb (bytes_eqb (fst y) n)), (negb (bytes_eqb (fst x) n)); try reflexivity. apply perm_swap.
Qed.
Lemma remove_ok s d i n : inv s d -> ~ decl_like n -> exists s', on s i (fun m l => take m l n) = Ok s' /\ inv s' (at_ d i (del n)) /\
  (covered s d -> covered s' (at_ d i (del n))) /\
  (forall d', (forall p nm ats, nth_error d i = Some (p, nm, ats) -> In n (map fst ats) -> length ats <> 11) -> tabs (length d') s d' -> tabs (length (at_ d' i (del n))) s' (at_ d' i (del n))).
Proof.
  intros V Dn. unfold on. destruct (nth_error (s_elems s) i) as [e|] eqn:He.
  - destruct (elem_there s d i e V He) as (ats & Ed). destruct (i_at s d V i e _ _ _ He Ed) as (_ & _ & _ & Nd & Z & l & T & Pm).
    assert (Pi : forall a, In a (map fst l) <-> In a (map fst ats)) by (intro a; split; apply Permutation_in; apply Permutation_map; [|symmetry]; exact Pm).
    destruct (take_ok (s_mem s) (e_attrs e) l n T (elem_own _ _ _ (i_own s d V) He)) as (m' & l' & ats' & -> & L & F & T' & Pm' & N' & Q' & K').
    { eapply Permutation_NoDup; [apply Permutation_map; symmetry; exact Pm|exact Nd]. } { rewrite Pi. exact Z. }
    cbn [bind]. eexists. split; [reflexivity|].
    assert (P : step (s_mem s) m' (e_attrs e) l') by (constructor; auto).
    split; [|split].
    + eapply (step_inv s d i e); try eassumption; [rewrite Pm'; apply del_perm; exact Pm|apply del_nodup; exact Nd|].
      intro I. apply fst_in in I as (y & I). apply del_in in I as [I _]. apply Z. eapply in_fst. exact I.
    + intro C. eapply covered_at; [exact C|exact He|exact Ed|]. intros a A Da. apply fst_in in A as (y & A). apply (in_fst _ _ y). apply del_in. split; [exact A|]. cbn. intros ->. contradiction.
    + intros d' H11 Td. eapply (step_tabs s d d' i e); try eassumption.
      * intros a k A Hk Dk. apply (K' ltac:(rewrite Pi, (Permutation_length Pm); apply (H11 _ _ _ Ed)) a k A Hk). intros ->. contradiction.
      * intros; apply del_nodup; assumption.
      * intros ats0 x Dx. rewrite del_in. split; [|tauto]. intro I. split; [exact I|]. intros <-. contradiction.
  - exists s. assert (En : nth_error d i = None). { apply nth_error_None. rewrite <- (i_len s d V). apply nth_error_None. exact He. }
    rewrite !at_none by exact En. split; [reflexivity|]. split; [exact V|]. split; [auto|]. intros d' _ Td.
    rewrite at_none; [exact Td|]. apply nth_error_None. rewrite <- (proj1 Td). apply nth_error_None. exact He.
Qed.

(** ** programs *)
Lemma ordinary_edit d c : ordinary d -> usual c -> ordinary (edit d c).
Proof.
  intros O U. assert (S : forall i n v, ~ lookalike n /\ ~ uses_xml n -> ordinary (at_ d i (added n v))).
  { intros i n v X j p nm ats E. apply at_nth in E as [[_ E]|[-> (ats0 & E & ->)]]; [exact (O j p nm ats E)|]. destruct (O i p nm ats0 E) as [A B]. split; [exact A|].
    intros a I. apply fst_in in I as (y & I). apply added_in in I as [I|[I _]]; [apply B; eapply in_fst; exact I|]. injection I as -> _. exact X. }
  destruct c as [p n|i n v|i n v|i n|]; cbn [edit]; cbn in U.
  - assert (X : forall d0, ordinary d0 -> forall q, ordinary (d0 ++ [(q, n, [])])).
    { intros d0 O0 q j p' nm ats E. destruct (Nat.lt_ge_cases j (length d0)) as [J|J].
      - rewrite nth_error_app1 in E by exact J. exact (O0 j p' nm ats E).
      - rewrite nth_error_app2 in E by exact J. destruct (j - length d0) as [|k]; [|destruct k; discriminate]. injection E as <- <- <-. split; [exact U|intros ? []]. }
    destruct d as [|x d]; [apply (X []); intros [|] ? ? ? E; discriminate|]. destruct (p <? length (x :: d)); [apply X; exact O|exact O].
  - rewrite edit_set. apply S. exact U.
  - rewrite edit_set. apply S. exact U.
  - intros j p nm ats E. apply at_nth in E as [[_ E]|[-> (ats0 & E & ->)]]; [exact (O j p nm ats E)|]. destruct (O i p nm ats0 E) as [A B]. split; [exact A|].
    intros a I. apply fst_in in I as (y & I). apply del_in in I as [I _]. apply B. eapply in_fst. exact I.
  - exact O.
Qed.
Lemma act_ok s d c : inv s d -> covered s d -> ordinary d -> keeps c -> exists s', act s c = Ok s' /\ inv s' (edit d c) /\ covered s' (edit d c).
Proof.
  intros V C O K. destruct c as [p n|i n v|i n v|i n|].
  - destruct (new_ok s d p n V) as (s' & E & V' & C' & _). exists s'. auto.
  - cbn [act edit]. rewrite edit_set. destruct (set_ok s d i false n v V) as (s' & E & V' & C' & _). exists s'. auto.
  - cbn [act edit]. rewrite edit_set. destruct (set_ok s d i true n v V) as (s' & E & V' & C' & _). exists s'. auto.
  - cbn [act edit]. destruct (remove_ok s d i n V K) as (s' & E & V' & C' & _). exists s'. auto.
  - cbn [act edit]. destruct (validate_ok s d V C O) as (s' & b & -> & V' & C' & _). exists s'. auto.
Qed.
Lemma run_ok l : forall s d, inv s d -> covered s d -> ordinary d -> Forall keeps l -> Forall usual l ->
  exists s', run s l = Ok s' /\ inv s' (edits d l) /\ covered s' (edits d l) /\ ordinary (edits d l).
Proof.
  induction l as [|c l IH]; intros s d V C O K U; [exists s; auto|]. inversion K as [|? ? K1 K2]; subst. inversion U as [|? ? U1 U2]; subst.
  destruct (act_ok s d c V C O K1) as (s1 & E & V1 & C1). cbn [run]. rewrite E. cbn [bind]. apply (IH s1 (edit d c) V1 C1 (ordinary_edit d c O U1) K2 U2).
Qed.
Lemma start_inv : inv st0 [].
Proof. constructor; [reflexivity| |constructor]. intros [|i] ? ? ? ? H; discriminate. Qed.
Lemma start_covered : covered st0 [].
Proof. intros [|i] ? ? ? ? H; discriminate. Qed.
Lemma start_ordinary : ordinary [].
Proof. intros [|i] ? ? ? H; discriminate. Qed.
Lemma declares_spec n : bytes_eqb (firstn 5 n) (str "xmlns") = true <-> decl_like n.
Proof. apply xmlns_spec. Qed.
Lemma calm_ok s d d' c : inv s d -> tabs (length d') s d' -> calm d c ->
  exists s', act s c = Ok s' /\ inv s' (edit d c) /\ let d1 := if declares c then d' else edit d' c in tabs (length d1) s' d1.
Proof.
  intros V T K. destruct c as [p n|i n v|i n v|i n|].
  - destruct (new_ok s d p n V) as (s' & E & V' & _ & T'). exists s'. split; [exact E|]. split; [exact V'|]. apply T'. exact T.
  - cbn [act edit declares]. rewrite !edit_set. destruct (set_ok s d i false n v V) as (s' & E & V' & _ & T1 & T2). exists s'. split; [exact E|]. split; [exact V'|].
    destruct (bytes_eqb (firstn 5 n) (str "xmlns")) eqn:X; [apply T1; exact T|]. apply T2; [|exact T]. intro D. apply declares_spec in D. congruence.
  - cbn [act edit declares]. rewrite !edit_set. destruct (set_ok s d i true n v V) as (s' & E & V' & _ & T1 & T2). exists s'. split; [exact E|]. split; [exact V'|].
    destruct (bytes_eqb (firstn 5 n) (str "xmlns")) eqn:X; [apply T1; exact T|]. apply T2; [|exact T]. intro D. apply declares_spec in D. congruence.
  - destruct K as [K1 K2]. cbn [act edit declares]. destruct (remove_ok s d i n V K1) as (s' & E & V' & _ & T'). exists s'. split; [exact E|]. split; [exact V'|]. apply T'; assumption.
  - contradiction.
Qed.
Lemma calms_ok l : forall s d d', inv s d -> tabs (length d') s d' -> all_calm d l ->
  exists s', run s l = Ok s' /\ let d1 := edits d' (filter (fun c => negb (declares c)) l) in tabs (length d1) s' d1.
Proof.
  induction l as [|c l IH]; intros s d d' V T K; [exists s; auto|]. destruct K as [K1 K2]. destruct (calm_ok s d d' c V T K1) as (s1 & E & V1 & T1).
  cbn [run]. rewrite E. cbn [bind]. destruct (IH s1 (edit d c) _ V1 T1 K2) as (s2 & E2 & T2). exists s2. split; [exact E2|].
  cbn [filter]. destruct (declares c); cbn [negb]; exact T2.
Qed.
Lemma edits_length_calm l : forall d d', length d = length d' -> length (edits d l) = length (edits d' (filter (fun c => negb (declares c)) l)).
Proof.
  assert (S : forall d d' c, length d = length d' -> length (edit d c) = length (edit d' c)).
  { intros d d' c L. destruct c as [p n|i n v|i n v|i n|]; cbn [edit]; rewrite ?edit_set, ?at_length; try exact L.
    destruct d as [|x d], d' as [|x' d']; try discriminate; [reflexivity|]. rewrite L. destruct (p <? _); [rewrite !app_length; cbn [length] in *; lia|exact L]. }
  induction l as [|c l IH]; intros d d' L; [exact L|]. cbn [filter]. change (edits d (c :: l)) with (edits (edit d c) l). destruct (declares c) eqn:D; cbn [negb].
  - apply IH. rewrite <- L. destruct c as [p n|i n v|i n v|i n|]; cbn [edit]; rewrite ?edit_set, ?at_length; try reflexivity; discriminate.
  - change (edits d' (c :: ?x)) with (edits (edit d' c) x). apply IH. apply S. exact L.
Qed.

Theorem validated l : Forall keeps l -> Forall usual l ->
  exists s s' b, run st0 l = Ok s /\ validate s = Ok (s', b) /\ (b = true <-> valid (edits [] l)) /\
    (b = true -> forall after, all_calm (edits [] l) after ->
       exists s2, run s' after = Ok s2 /\
         forall i, i < length (edits [] (l ++ after)) -> forall ns local,
           exists r, node_is s2 i ns local = Ok r /\ (r = true <-> is_named (edits [] (l ++ filter (fun c => negb (declares c)) after)) i ns local)).
Proof.
  intros K U. destruct (run_ok l st0 [] start_inv start_covered start_ordinary K U) as (s & E & V & C & O). destruct (validate_ok s _ V C O) as (s' & b & E' & V' & C' & T & B).
  exists s, s', b. split; [exact E|]. split; [exact E'|]. split; [exact B|]. intros Hb after A.
  destruct (calms_ok after s' _ _ V' (T Hb) A) as (s2 & E2 & T2). exists s2. split; [exact E2|]. intros i I ns local.
  unfold edits in *. rewrite fold_left_app in *. apply node_is_ok; [exact T2|]. fold edits in *.
  pose proof (edits_length_calm after (fold_left edit l []) _ eq_refl) as L. unfold edits in L. rewrite <- L. exact I.
Qed.
Theorem validated_now l : Forall keeps l -> Forall usual l ->
  exists s s' b, run st0 l = Ok s /\ validate s = Ok (s', b) /\ (b = true <-> valid (edits [] l)) /\
    (b = true -> forall i, i < length (edits [] l) -> forall ns local,
       exists r, node_is s' i ns local = Ok r /\ (r = true <-> is_named (edits [] l) i ns local)).
Proof.
  intros K U. destruct (validated l K U) as (s & s' & b & E & E' & B & H). exists s, s', b. split; [exact E|]. split; [exact E'|]. split; [exact B|]. intros Hb i I ns local.
  destruct (H Hb [] Logic.I) as (s2 & E2 & Q). cbn in E2. injection E2 as <-. cbn [filter] in Q. rewrite app_nil_r in Q. apply Q. exact I.
Qed.
