(** Lemmas about the reading of the command line. *)
From Verif Require Import Prelude ExargModel ExargSpec ExargExec.

Lemma bytes_eqb_iff a b : bytes_eqb a b = true <-> a = b.
Proof.
  revert b. induction a as [|x a IH]; intros [|y b]; cbn; split; intro H; try easy.
  - apply andb_true_iff in H as [H1 H2]. apply Ascii.eqb_eq in H1. apply IH in H2. now subst.
  - injection H as -> ->. rewrite Ascii.eqb_refl. now apply IH.
Qed.

Lemma begins_iff w a : begins w a = true <-> exists t, a = w ++ t.
Proof.
  revert a. induction w as [|c w IH]; intros a; cbn; [split; [now exists a | easy]|].
  destruct a as [|d a]; [split; [easy | intros [t E]; discriminate]|].
  rewrite andb_true_iff, Ascii.eqb_eq, IH. split.
  - intros [-> [t ->]]. now exists t.
  - intros [t E]. injection E as -> ->. split; [easy | now exists t].
Qed.

Lemma begins_cons c w a : begins (c :: w) a = match a with d :: a' => Ascii.eqb c d && begins w a' | [] => false end.
Proof. destruct a; reflexivity. Qed.

Lemma slash_in w : existsb (Ascii.eqb "/") w = false <-> ~ In "/"%char w.
Proof.
  induction w as [|c w IH]; cbn [existsb In]; [tauto|]. rewrite orb_false_iff, IH, Ascii.eqb_neq. firstorder congruence.
Qed.

Lemma style_unix m : unix_ok m = true <-> style_of m <> Slashes.
Proof. destruct m; cbn; split; congruence. Qed.
Lemma style_windows m : windows_ok m = true <-> style_of m <> Dashes.
Proof. destruct m; cbn; split; congruence. Qed.

Lemma argument_true m a m' : is_argument m a = (m', true) ->
  exists w, get_argument a = Some w /\ option_in (style_of m) a w (style_of m').
Proof.
  unfold is_argument, get_argument. intro H.
  destruct (begins (s2b "--") a) eqn:B.
  { apply begins_iff in B as [t ->]. destruct (unix_ok m) eqn:U; cbn [andb] in H.
    - injection H as <-. exists t. split; [reflexivity|]. apply two_dashes. now apply style_unix.
    - cbn in H. rewrite andb_false_r in H. discriminate. }
  rewrite andb_false_r in H.
  destruct (Nat.eqb (length a) 2 && begins (s2b "-") a) eqn:C.
  { apply andb_true_iff in C as [L C]. apply Nat.eqb_eq in L. rewrite L in H. cbn in H.
    destruct (unix_ok m) eqn:U; cbn [andb] in H.
    2: { rewrite andb_false_r in H. cbn in H. discriminate. }
    apply begins_iff in C as [t ->]. cbn in L. destruct t as [|c [|? ?]]; try discriminate.
    assert (N : c <> "-"%char) by (intros ->; discriminate B).
    cbn [s2b list_ascii_of_string app begins Ascii.eqb Bool.eqb andb] in H. cbn in H. injection H as <-.
    exists [c]. split; [reflexivity|]. apply one_dash; [now apply style_unix | easy]. }
  rewrite <- andb_assoc, C, andb_false_r in H.
  destruct (windows_ok m) eqn:W; cbn [andb] in H; [|discriminate].
  destruct (Nat.ltb 2 (length a) && begins (s2b "/") a) eqn:D; [|discriminate].
  apply andb_true_iff in D as [L D]. apply Nat.ltb_lt in L. apply begins_iff in D as [t ->].
  cbn [s2b list_ascii_of_string app tl] in *.
  destruct (existsb (Ascii.eqb "/") t) eqn:E; [discriminate|]. injection H as <-.
  exists t. split; [reflexivity|]. apply slash; [now apply style_windows | cbn in L; lia | now apply slash_in].
Qed.

Lemma argument_in m a w s' : option_in (style_of m) a w s' ->
  exists m', is_argument m a = (m', true) /\ get_argument a = Some w /\ s' = style_of m'.
Proof.
  intro H. inversion H; subst.
  - exists MUnix. apply style_unix in H0. unfold is_argument, get_argument. cbn. rewrite H0. cbn. auto.
  - exists MUnix. apply style_unix in H0. unfold is_argument, get_argument. cbn [begins s2b list_ascii_of_string].
    assert (Q : Ascii.eqb "-" c = false) by (apply Ascii.eqb_neq; congruence).
    rewrite Q, H0. cbn. auto.
  - exists MWindows. apply style_windows in H0. apply slash_in in H2. unfold is_argument, get_argument.
    cbn [begins s2b list_ascii_of_string length tl]. cbn [Ascii.eqb Bool.eqb andb].
    rewrite !andb_false_r, H0.
    assert (Q : Nat.ltb 2 (S (length w)) = true) by (apply Nat.ltb_lt; lia). rewrite Q. cbn [andb].
    rewrite H2. auto.
Qed.

Lemma argument_false m a m' : is_argument m a = (m', false) -> m' = m /\ plain_in (style_of m) a.
Proof.
  intro H. split.
  - unfold is_argument in H. repeat (match type of H with context [if ?b then _ else _] => destruct b end; try discriminate); congruence.
  - intros w s' O. apply argument_in in O as (q & E & _). congruence.
Qed.

Lemma argument_plain m a : plain_in (style_of m) a -> is_argument m a = (m, false).
Proof.
  intro P. destruct (is_argument m a) as [m' [|]] eqn:E.
  - apply argument_true in E as (w & _ & O). destruct (P _ _ O).
  - apply argument_false in E as [-> _]. reflexivity.
Qed.

Lemma asks_iff w : asks w <-> (check_help w || begins (s2b "usage") w) = true.
Proof.
  unfold check_help. rewrite !orb_true_iff, !begins_iff. split.
  - intros (p & t & I & ->). cbn [In] in I. destruct I as [<-|[<-|[<-|[]]]]; eauto.
  - intros [[[t ->]|[t ->]]|[t ->]]; (eexists; exists t; split; [|reflexivity]); cbn; auto.
Qed.

Lemma called_iff o w : called o w = true <-> In w (d_names (decl_of o)).
Proof.
  unfold called, decl_of; cbn [d_names]. rewrite orb_true_iff, bytes_eqb_iff.
  destruct (o_short o) as [s|]; cbn; [rewrite bytes_eqb_iff|]; intuition congruence.
Qed.

Lemma lookup_from_some l w : forall k i, lookup_from k l w = Some i ->
  exists j, i = k + j /\ exists d, means (map decl_of l) w j d.
Proof.
  induction l as [|o l IH]; intros k i H; [discriminate|]. cbn in H.
  destruct (called o w) eqn:C.
  - injection H as <-. exists 0. split; [lia|]. exists (decl_of o). split; [reflexivity|].
    split; [now apply called_iff | intros j e J; lia].
  - apply IH in H as (j & -> & d & E & I & F). exists (S j). split; [lia|]. exists d. split; [exact E|].
    split; [exact I|]. intros [|q] e Q X.
    + cbn in X. injection X as <-. rewrite <- called_iff. congruence.
    + apply (F q); [lia | exact X].
Qed.

Lemma lookup_from_means l w : forall k j d, means (map decl_of l) w j d -> lookup_from k l w = Some (k + j).
Proof.
  induction l as [|o l IH]; intros k j d (E & I & F); [destruct j; discriminate|]. cbn.
  destruct j as [|j].
  - cbn in E. injection E as <-. apply called_iff in I. rewrite I. f_equal. lia.
  - destruct (called o w) eqn:C.
    + exfalso. apply (F 0 (decl_of o)); [lia | reflexivity | now apply called_iff].
    + rewrite (IH (S k) j d); [f_equal; lia|]. split; [exact E|]. split; [exact I|].
      intros q e Q X. apply (F (S q)); [lia | exact X].
Qed.

Lemma lookup_some l w i : lookup l w = Some i -> exists d, means (map decl_of l) w i d.
Proof. intro H. apply lookup_from_some in H as (j & -> & d & M). now exists d. Qed.
Lemma lookup_means l w i d : means (map decl_of l) w i d -> lookup l w = Some i.
Proof. intro M. unfold lookup. rewrite (lookup_from_means _ _ 0 _ _ M). reflexivity. Qed.
Lemma lookup_none l w : lookup l w = None <-> forall i d, ~ means (map decl_of l) w i d.
Proof.
  split; [intros H i d M; apply lookup_means in M; congruence|].
  intro N. destruct (lookup l w) eqn:E; [|reflexivity]. apply lookup_some in E as [d M]. destruct (N _ _ M).
Qed.

Lemma nth_upd l i f j : nth_error (upd l i f) j = if Nat.eqb i j then option_map f (nth_error l j) else nth_error l j.
Proof.
  revert i j. induction l as [|o l IH]; intros i j; cbn.
  - destruct i, j; cbn; try reflexivity. now destruct (Nat.eqb i j).
  - destruct i, j; cbn; try reflexivity. apply IH.
Qed.

Lemma decls_upd l i f : (forall o, decl_of (f o) = decl_of o) -> map decl_of (upd l i f) = map decl_of l.
Proof.
  intro H. revert i. induction l as [|o l IH]; intros i; [reflexivity|]. destruct i; cbn; [now rewrite H | now rewrite IH].
Qed.

(** what the options are after those of a list have been given *)
Definition value_of (v : bytes) (o : opt) : opt :=
  match o_kind o with AInt => put_int v (mark o) | _ => put_string v (mark o) end.
Definition give (p : nat * option bytes) (l : list opt) : list opt :=
  upd l (fst p) (match snd p with None => mark | Some v => value_of v end).
Fixpoint given (g : list (nat * option bytes)) (l : list opt) : list opt :=
  match g with [] => l | p :: g' => given g' (give p l) end.

Lemma decl_mark o : decl_of (mark o) = decl_of o. Proof. reflexivity. Qed.
Lemma decl_value v o : decl_of (value_of v o) = decl_of o.
Proof. unfold value_of. destruct (o_kind o); reflexivity. Qed.
Lemma decls_give p l : map decl_of (give p l) = map decl_of l.
Proof. unfold give. apply decls_upd. destruct (snd p); [apply decl_value | apply decl_mark]. Qed.
Lemma decls_given g l : map decl_of (given g l) = map decl_of l.
Proof. revert l. induction g as [|p g IH]; intro l; cbn; [reflexivity | now rewrite IH, decls_give]. Qed.

Lemma upd_upd l i f g : upd (upd l i f) i g = upd l i (fun o => g (f o)).
Proof. revert i. induction l as [|o l IH]; intros [|i]; cbn; try reflexivity. now rewrite IH. Qed.
Lemma upd_ext l i f g o : nth_error l i = Some o -> f o = g o -> upd l i f = upd l i g.
Proof.
  revert i. induction l as [|x l IH]; intros [|i] E H; try discriminate; cbn in *.
  - injection E as ->. now rewrite H.
  - f_equal. now apply IH.
Qed.

Lemma given_fresh g l i : ~ In i (map fst g) -> nth_error (given g l) i = nth_error l i.
Proof.
  revert l. induction g as [|p g IH]; intros l N; cbn; [reflexivity|]. cbn in N.
  rewrite IH by tauto. unfold give. rewrite nth_upd. destruct (Nat.eqb_spec (fst p) i); [tauto | reflexivity].
Qed.

Lemma given_in g l i v o : NoDup (map fst g) -> In (i, v) g -> nth_error l i = Some o ->
  nth_error (given g l) i = Some (match v with None => mark o | Some v => value_of v o end).
Proof.
  revert l o. induction g as [|p g IH]; intros l o D I E; [destruct I|]. cbn in D. apply NoDup_cons_iff in D as [N D].
  cbn [given]. destruct I as [->|I].
  - rewrite given_fresh by exact N. unfold give. cbn [fst snd]. rewrite nth_upd, Nat.eqb_refl, E. cbn. now destruct v.
  - assert (NE : fst p <> i) by (intros <-; apply N; apply (in_map fst) in I; exact I).
    rewrite (IH _ o D I); [reflexivity|]. unfold give. rewrite nth_upd. apply Nat.eqb_neq in NE. now rewrite NE.
Qed.

Lemma nth_decl l i d : nth_error (map decl_of l) i = Some d -> exists o, nth_error l i = Some o /\ d = decl_of o.
Proof. rewrite nth_error_map. destruct (nth_error l i) as [o|]; cbn; intro H; [injection H as <-; eauto | discriminate]. Qed.

(** the state in which the loop ends *)
Definition result (st : exarg) (g : list (nat * option bytes)) (f : list bytes) (m : mode) : exarg :=
  mkExarg (given g (x_opts st)) (x_params st ++ f) m (x_nofree st) (x_told st).

Definition unused (l : list opt) (g : list (nat * option bytes)) : Prop :=
  forall i o, In i (map fst g) -> nth_error l i = Some o -> o_defined o = false.

Lemma unused_give p g l : unused (give p l) g -> ~ In (fst p) (map fst g) -> unused l g.
Proof.
  intros U N i o I E. apply (U i); [exact I|]. unfold give. rewrite nth_upd.
  destruct (Nat.eqb_spec (fst p) i); [subst; tauto | exact E].
Qed.

Lemma give_defined p l i o : nth_error (give p l) i = Some o -> i = fst p -> o_defined o = true.
Proof.
  intros E ->. unfold give in E. rewrite nth_upd, Nat.eqb_refl in E.
  destruct (nth_error l (fst p)) as [x|]; cbn in E; [|discriminate]. injection E as <-.
  destruct (snd p); cbn; [unfold value_of; destruct (o_kind x)|]; reflexivity.
Qed.

Lemma given_none p g l : unused (give p l) g -> (exists o, nth_error l (fst p) = Some o) -> ~ In (fst p) (map fst g).
Proof.
  intros U [o E] I. assert (Q : exists o', nth_error (give p l) (fst p) = Some o').
  { unfold give. rewrite nth_upd, Nat.eqb_refl, E. cbn. eauto. }
  destruct Q as [o' Q]. pose proof (U _ _ I Q). rewrite (give_defined _ _ _ _ Q eq_refl) in H. discriminate.
Qed.

Lemma loop_says n : forall args st st', length args <= n -> parse_loop st args = Goes st' ->
  exists g f m, says (decls st) (style_of (x_mode st)) args g f /\ st' = result st g f m /\
    (x_nofree st = true -> f = []) /\ NoDup (map fst g) /\ unused (x_opts st) g.
Proof.
  induction n as [|n IH]; intros args st st' L H.
  { destruct args; [|cbn in L; lia]. injection H as <-. exists [], [], (x_mode st).
    repeat split; try constructor; [|easy]. unfold result. cbn. rewrite app_nil_r. now destruct st. }
  destruct args as [|a rest].
  { injection H as <-. exists [], [], (x_mode st).
    repeat split; try constructor; [|easy]. unfold result. cbn. rewrite app_nil_r. now destruct st. }
  cbn in L. cbn [parse_loop] in H.
  destruct (is_argument (x_mode st) a) as [m isarg] eqn:EA. destruct isarg; cbn [negb] in H.
  2: { apply argument_false in EA as [-> P]. cbn [x_nofree set_mode] in H.
    destruct (x_nofree st) eqn:NF; [discriminate|].
    apply IH in H; [|lia]. destruct H as (g & f & m & S & -> & F & D & U).
    exists g, (a :: f), m. split; [|split; [|split; [intro X; congruence | split; [exact D | exact U]]]].
    - apply says_free; [exact P | exact S].
    - unfold result, add_argument, set_mode; cbn. now rewrite <- app_assoc. }
  apply argument_true in EA as (w & G & O). rewrite G in H.
  destruct (check_help w) eqn:CH; [discriminate|]. destruct (begins (s2b "usage") w) eqn:CU; [discriminate|].
  assert (NA : ~ asks w) by (rewrite asks_iff, CH, CU; discriminate).
  cbn [x_opts set_mode] in H.
  destruct (lookup (x_opts st) w) as [i|] eqn:EL; [|discriminate].
  apply lookup_some in EL as [d M]. pose proof M as (ED & _). apply nth_decl in ED as (o & EO & ->).
  rewrite EO in H. destruct (o_defined o) eqn:OD; [discriminate|].
  assert (K : forall v : option bytes, forall g, unused (give (i, v) (x_opts st)) g -> NoDup (map fst g) ->
      NoDup (map fst ((i, v) :: g)) /\ unused (x_opts st) ((i, v) :: g)).
  { intros v g U D. assert (N : ~ In i (map fst g)) by (apply (given_none (i, v) g (x_opts st)); [exact U | now exists o]).
    split; [constructor; assumption|]. intros j x [J|J] E; [cbn in J; subst j; congruence|].
    apply (unused_give (i, v) g (x_opts st) U N j); assumption. }
  destruct (o_kind o) eqn:OK.
  - apply IH in H; [|lia]. destruct H as (g & f & m' & S & -> & F & D & U).
    cbn [x_opts set_opts set_mode x_mode x_nofree] in *.
    destruct (K None g U D) as [D' U'].
    exists ((i, None) :: g), f, m'. split; [|split; [reflexivity | split; [exact F | split; assumption]]].
    eapply says_flag; [exact O | exact NA | exact M | cbn; now rewrite OK |].
    unfold decls in S; cbn in S. rewrite (decls_upd _ _ _ decl_mark) in S. exact S.
  - destruct rest as [|v rest]; [discriminate|]. cbn [x_mode set_opts set_mode] in H.
    destruct (is_argument m v) as [m2 isv] eqn:EV. destruct isv; [discriminate|].
    apply argument_false in EV as [-> P].
    cbn in L. apply IH in H; [|lia]. destruct H as (g & f & m' & S & -> & F & D & U).
    cbn [x_opts set_opts set_mode x_mode x_nofree] in *.
    assert (Q : upd (upd (x_opts st) i mark) i (put_int v) = give (i, Some v) (x_opts st)).
    { rewrite upd_upd. unfold give. cbn. apply (upd_ext _ _ _ _ o EO). unfold value_of. now rewrite OK. }
    rewrite Q in U. destruct (K (Some v) g U D) as [D' U'].
    exists ((i, Some v) :: g), f, m'. split; [|split; [|split; [exact F | split; assumption]]].
    + eapply says_value; [exact O | exact NA | exact M | cbn; rewrite OK; discriminate | exact P |].
      unfold decls in S; cbn in S. rewrite Q, decls_give in S. exact S.
    + unfold result. cbn [set_opts set_mode x_opts x_params x_nofree x_told given]. now rewrite Q.
  - destruct rest as [|v rest]; [discriminate|]. cbn [x_mode set_opts set_mode] in H.
    destruct (is_argument m v) as [m2 isv] eqn:EV. destruct isv; [discriminate|].
    apply argument_false in EV as [-> P].
    cbn in L. apply IH in H; [|lia]. destruct H as (g & f & m' & S & -> & F & D & U).
    cbn [x_opts set_opts set_mode x_mode x_nofree] in *.
    assert (Q : upd (upd (x_opts st) i mark) i (put_string v) = give (i, Some v) (x_opts st)).
    { rewrite upd_upd. unfold give. cbn. apply (upd_ext _ _ _ _ o EO). unfold value_of. now rewrite OK. }
    rewrite Q in U. destruct (K (Some v) g U D) as [D' U'].
    exists ((i, Some v) :: g), f, m'. split; [|split; [|split; [exact F | split; assumption]]].
    + eapply says_value; [exact O | exact NA | exact M | cbn; rewrite OK; discriminate | exact P |].
      unfold decls in S; cbn in S. rewrite Q, decls_give in S. exact S.
    + unfold result. cbn [set_opts set_mode x_opts x_params x_nofree x_told given]. now rewrite Q.
Qed.

Lemma unused_next p g l : NoDup (map fst (p :: g)) -> unused l (p :: g) -> unused (give p l) g.
Proof.
  intros D U i o I E. cbn in D. apply NoDup_cons_iff in D as [N _]. unfold give in E. rewrite nth_upd in E.
  destruct (Nat.eqb_spec (fst p) i); [subst; tauto|]. apply (U i); [now right | exact E].
Qed.

Lemma loop_goes ds s args g f : says ds s args g f -> forall st, decls st = ds -> style_of (x_mode st) = s ->
  NoDup (map fst g) -> unused (x_opts st) g -> (x_nofree st = true -> f = []) ->
  exists m, parse_loop st args = Goes (result st g f m).
Proof.
  induction 1 as [s|s a args g f P S IH|s s' a w i d args g f O NA M V S IH|s s' a w i d v args g f O NA M V P S IH];
    intros st ED ES D U F; subst.
  - exists (x_mode st). cbn. unfold result. rewrite app_nil_r. now destruct st.
  - cbn [parse_loop]. rewrite (argument_plain _ _ P). cbn [negb set_mode x_nofree].
    destruct (x_nofree st) eqn:NF; [specialize (F eq_refl); discriminate|].
    destruct (IH (add_argument (set_mode st (x_mode st)) a)) as [m E]; try reflexivity; try assumption.
    { cbn. congruence. }
    exists m. rewrite E. unfold result, add_argument, set_mode; cbn. now rewrite <- app_assoc, NF.
  - cbn [parse_loop]. destruct (argument_in _ _ _ _ O) as (m & -> & -> & ->). cbn [negb].
    assert (Q : (check_help w || begins (s2b "usage") w) = false).
    { destruct (check_help w || begins (s2b "usage") w) eqn:E; [destruct NA; now apply asks_iff | reflexivity]. }
    apply orb_false_iff in Q as [-> ->]. cbn [x_opts set_mode]. rewrite (lookup_means _ _ _ _ M).
    pose proof M as (EN & _). apply nth_decl in EN as (o & EO & ->). rewrite EO.
    rewrite (U i o) by (cbn; auto).
    assert (OK : o_kind o = ANone) by (cbn in V; destruct (o_kind o); easy). rewrite OK.
    match goal with |- exists m, parse_loop ?x args = _ => destruct (IH x) as [m' E] end.
    + unfold decls; cbn. now rewrite (decls_upd _ _ _ decl_mark).
    + reflexivity.
    + now apply NoDup_cons_iff in D as [_ D].
    + apply (unused_next (i, None)); assumption.
    + exact F.
    + exists m'. rewrite E. reflexivity.
  - cbn [parse_loop]. destruct (argument_in _ _ _ _ O) as (m & -> & -> & ->). cbn [negb].
    assert (Q : (check_help w || begins (s2b "usage") w) = false).
    { destruct (check_help w || begins (s2b "usage") w) eqn:E; [destruct NA; now apply asks_iff | reflexivity]. }
    apply orb_false_iff in Q as [-> ->]. cbn [x_opts set_mode]. rewrite (lookup_means _ _ _ _ M).
    pose proof M as (EN & _). apply nth_decl in EN as (o & EO & ->). rewrite EO.
    rewrite (U i o) by (cbn; auto).
    assert (QV : forall put, (o_kind o = AInt /\ put = put_int v) \/ (o_kind o = AString /\ put = put_string v) ->
      upd (upd (x_opts st) i mark) i put = give (i, Some v) (x_opts st)).
    { intros put Z. rewrite upd_upd. unfold give. cbn. apply (upd_ext _ _ _ _ o EO). unfold value_of.
      destruct Z as [[-> ->]|[-> ->]]; reflexivity. }
    destruct (o_kind o) eqn:OK; [cbn in V; rewrite OK in V; easy | |];
      cbn [x_mode set_opts set_mode]; rewrite (argument_plain _ _ P);
      cbn [x_opts set_opts set_mode x_params x_mode x_nofree x_told]; rewrite QV by tauto;
      (match goal with |- exists m, parse_loop ?x args = _ => destruct (IH x) as [m' E] end;
        [ unfold decls; cbn [x_opts set_opts set_mode]; now rewrite decls_give
        | reflexivity
        | now apply NoDup_cons_iff in D as [_ D]
        | apply (unused_next (i, Some v)); assumption
        | exact F
        | exists m'; rewrite E; reflexivity ]).
Qed.

(** what a program has before it reads the command line *)
Definition ready (st : exarg) : Prop :=
  (forall o, In o (x_opts st) -> o_defined o = false /\ o_string o = None /\
     Forall (fun j => j < length (x_opts st)) (o_depends o) /\ Forall (fun j => j < length (x_opts st)) (o_excludes o)) /\
  x_mode st = MNone /\ x_params st = [] /\ x_told st = [].

Lemma length_upd l i f : length (upd l i f) = length l.
Proof. revert i. induction l as [|o l IH]; intros [|i]; cbn; try reflexivity. now rewrite IH. Qed.
Lemma length_given g l : length (given g l) = length l.
Proof. revert l. induction g as [|p g IH]; intro l; cbn; [reflexivity|]. rewrite IH. apply length_upd. Qed.

Lemma lookup_range l n i : lookup l n = Some i -> i < length l.
Proof.
  intro H. apply lookup_some in H as (d & E & _). rewrite <- (map_length decl_of). apply nth_error_Some. congruence.
Qed.

Lemma in_upd l i f x : In x (upd l i f) -> In x l \/ exists o, In o l /\ x = f o.
Proof.
  revert i. induction l as [|o l IH]; intros [|i]; cbn; try tauto.
  - intros [<-|I]; [right; exists o; auto | auto].
  - intros [<-|I]; [auto|]. destruct (IH _ I) as [?|(y & ? & ?)]; [auto | right; exists y; auto].
Qed.

Lemma step_ready st s st' : ready st -> do_step st s = Goes st' -> ready st'.
Proof.
  intros (R & M & P & T) H. destruct s as [n s k|a b|a b|a|b]; cbn in H.
  - unfold install in H. destruct (lookup (x_opts st) n); [discriminate|].
    match type of H with (if ?b then _ else _) = _ => destruct b end; [discriminate|]. injection H as <-.
    split; [|auto]. cbn. intros o I. rewrite app_length. apply in_app_or in I as [I|[<-|[]]].
    + destruct (R o I) as (? & ? & F1 & F2). repeat split; auto; eapply Forall_impl; try eassumption; cbn; lia.
    + cbn. repeat split; constructor.
  - unfold add_dependency, add_relation in H. destruct (bytes_eqb a b); [discriminate|].
    destruct (lookup (x_opts st) a) as [i|]; [|discriminate]. destruct (lookup (x_opts st) b) as [j|] eqn:LJ; [|discriminate].
    injection H as <-. apply lookup_range in LJ. split; [|auto]. cbn. intros o I. rewrite length_upd.
    apply in_upd in I as [I|(x & I & ->)]; [now apply R|]. destruct (R x I) as (? & ? & F1 & F2). cbn. repeat split; auto.
  - unfold add_exclusion, add_relation in H. destruct (bytes_eqb a b); [discriminate|].
    destruct (lookup (x_opts st) a) as [i|]; [|discriminate]. destruct (lookup (x_opts st) b) as [j|] eqn:LJ; [|discriminate].
    injection H as <-. apply lookup_range in LJ. split; [|auto]. cbn. intros o I. rewrite length_upd.
    apply in_upd in I as [I|(x & I & ->)]; [now apply R|]. destruct (R x I) as (? & ? & F1 & F2). cbn. repeat split; auto.
  - injection H as <-. unfold set_obligatory. destruct (lookup (x_opts st) a) as [i|]; [|split; auto].
    split; [|auto]. cbn. intros o I. rewrite length_upd.
    apply in_upd in I as [I|(x & I & ->)]; [now apply R|]. destruct (R x I) as (? & ? & F1 & F2). cbn. repeat split; auto.
  - injection H as <-. split; auto.
Qed.

Lemma steps_ready l : forall st st', ready st -> do_steps st l = Goes st' -> ready st'.
Proof.
  induction l as [|s l IH]; intros st st' R H; cbn in H; [now injection H as <-|].
  destruct (do_step st s) as [st1|] eqn:E; [|discriminate]. apply (IH st1); [now apply (step_ready st s) | exact H].
Qed.

Lemma start_ready l st : do_steps start l = Goes st -> ready st.
Proof. apply steps_ready. split; [intros o []|auto]. Qed.

Lemma ready_unused st g : ready st -> unused (x_opts st) g.
Proof. intros (R & _) i o _ E. apply nth_error_In in E. now apply R. Qed.

Lemma says_range ds s args g f : says ds s args g f -> forall i, In i (map fst g) -> i < length ds.
Proof.
  induction 1; intros j J; try (now apply IHsays); cbn in J.
  - destruct J.
  - destruct J as [<-|J]; [|now apply IHsays]. destruct H1 as (E & _). apply nth_error_Some. congruence.
  - destruct J as [<-|J]; [|now apply IHsays]. destruct H1 as (E & _). apply nth_error_Some. congruence.
Qed.

Section Checks.
Variable st : exarg.
Variable g : list (nat * option bytes).
Hypothesis R : ready st.
Hypothesis D : NoDup (map fst g).
Hypothesis B : forall i, In i (map fst g) -> i < length (x_opts st).
Let l := given g (x_opts st).

Lemma defined_iff i o : nth_error l i = Some o -> (o_defined o = true <-> In i (map fst g)).
Proof.
  intro E. split.
  - intro T. destruct (in_dec Nat.eq_dec i (map fst g)) as [I|N]; [exact I|].
    unfold l in E. rewrite given_fresh in E by exact N. apply nth_error_In in E.
    destruct R as [R' _]. destruct (R' _ E) as [F _]. congruence.
  - intro I. assert (X : exists v, In (i, v) g).
    { apply in_map_iff in I as ([j v] & <- & I). now exists v. }
    destruct X as [v X]. assert (Y : exists o0, nth_error (x_opts st) i = Some o0).
    { destruct (nth_error (x_opts st) i) eqn:Q; [eauto|]. apply nth_error_None in Q. apply B in I. lia. }
    destruct Y as [o0 Y]. unfold l in E. rewrite (given_in g _ i v o0 D X Y) in E. injection E as <-.
    destruct v; [unfold value_of; destruct (o_kind o0)|]; reflexivity.
Qed.

Lemma nth_same i o : nth_error l i = Some o -> nth_error (decls st) i = Some (decl_of o).
Proof.
  intro E. unfold decls. rewrite <- (decls_given g). fold l. rewrite nth_error_map, E. reflexivity.
Qed.
Lemma nth_back i d : nth_error (decls st) i = Some d -> exists o, nth_error l i = Some o /\ d = decl_of o.
Proof. unfold decls. rewrite <- (decls_given g). apply nth_decl. Qed.

Lemma ranges o : In o l -> Forall (fun j => j < length l) (o_depends o) /\ Forall (fun j => j < length l) (o_excludes o).
Proof.
  intro I. apply In_nth_error in I as [i E]. apply nth_same in E. apply nth_decl in E as (x & X & Y).
  unfold decl_of in Y. injection Y as _ _ _ _ Y1 Y2. apply nth_error_In in X. destruct R as [R' _].
  destruct (R' _ X) as (_ & _ & F1 & F2). unfold l. rewrite length_given, Y1, Y2. auto.
Qed.

Lemma required_iff : check_required l = Goes tt <-> complete (decls st) g.
Proof.
  assert (A : forall k, check_required k = Goes tt <-> forall o, In o k -> o_optional o = false -> o_defined o = true).
  { induction k as [|o k IH]; cbn; [split; [intros _ o [] | reflexivity]|].
    destruct (o_optional o) eqn:O; cbn.
    - rewrite IH. split; [intros H x [<-|I] Z; [congruence | now apply H] | intros H x I; apply H; auto].
    - destruct (o_defined o) eqn:F; cbn.
      + rewrite IH. split; [intros H x [<-|I] Z; [exact F | now apply H] | intros H x I; apply H; auto].
      + split; [discriminate|]. intro H. rewrite (H o) in F; [discriminate | auto | auto]. }
  rewrite A. split.
  - intros H i d E N. apply nth_back in E as (o & E & ->). apply (defined_iff i o E). apply H; [eapply nth_error_In; eassumption|].
    cbn in N. now destruct (o_optional o).
  - intros H o I O. apply In_nth_error in I as [i E]. apply (defined_iff i o E). apply (H i (decl_of o)); [now apply nth_same|].
    cbn. now rewrite O.
Qed.

Lemma depends_spec n ds : Forall (fun j => j < length l) ds ->
  (check_depends l n ds = Ok (Goes tt) /\ (forall j, In j ds -> In j (map fst g))) \/
  (exists x, check_depends l n ds = Ok (Ends (Depends n x)) /\ exists j, In j ds /\ ~ In j (map fst g)).
Proof.
  induction 1 as [|j ds J F IH]; cbn; [left; split; [reflexivity | intros _ []]|].
  destruct (nth_error l j) as [o|] eqn:E; [|apply nth_error_None in E; lia]. cbn.
  pose proof (defined_iff j o E) as Q. destruct (o_defined o).
  - destruct IH as [[-> A]|(x & -> & k & K & N)].
    + left. split; [reflexivity|]. intros k [<-|K]; [now apply Q | now apply A].
    + right. exists x. split; [reflexivity|]. exists k. auto.
  - right. eexists. split; [reflexivity|]. exists j. split; [auto|]. intro I. apply Q in I. discriminate.
Qed.

Lemma excludes_spec ds : Forall (fun j => j < length l) ds ->
  (check_excludes l ds = Ok None /\ (forall j, In j ds -> ~ In j (map fst g))) \/
  (exists x, check_excludes l ds = Ok (Some x) /\ exists j, In j ds /\ In j (map fst g)).
Proof.
  induction 1 as [|j ds J F IH]; cbn; [left; split; [reflexivity | intros _ []]|].
  destruct (nth_error l j) as [o|] eqn:E; [|apply nth_error_None in E; lia]. cbn.
  pose proof (defined_iff j o E) as Q. destruct (o_defined o).
  - right. eexists. split; [reflexivity|]. exists j. split; [auto|]. now apply Q.
  - destruct IH as [[-> A]|(x & -> & k & K & N)].
    + left. split; [reflexivity|]. intros k [<-|K]; [intro I; apply Q in I; discriminate | now apply A].
    + right. exists x. split; [reflexivity|]. exists k. auto.
Qed.

Lemma all_spec k : (forall o, In o k -> In o l) ->
  (check_all l k = Ok (Goes None) /\ (forall o, In o k -> o_defined o = true ->
     (forall j, In j (o_depends o) -> In j (map fst g)) /\ (forall j, In j (o_excludes o) -> ~ In j (map fst g)))) \/
  (exists p, check_all l k = Ok (Goes (Some p)) /\ exists o j, In o k /\ o_defined o = true /\ In j (o_excludes o) /\ In j (map fst g)) \/
  (exists n x, check_all l k = Ok (Ends (Depends n x)) /\ exists o j, In o k /\ o_defined o = true /\ In j (o_depends o) /\ ~ In j (map fst g)).
Proof.
  induction k as [|o k IH]; intro S; cbn [check_all]; [left; split; [reflexivity | intros o []]|].
  assert (S' : forall x, In x k -> In x l) by (intros x X; apply S; now right). specialize (IH S').
  assert (W : forall x, o_defined o = true -> In x k -> In x (o :: k)) by (intros; now right).
  destruct (o_defined o) eqn:OD; cbn [negb].
  - destruct (ranges o (S o (or_introl eq_refl))) as [F1 F2].
    destruct (depends_spec (o_name o) _ F1) as [[-> A]|(x & -> & j & J & N)]; cbn [bind].
    2: { right. right. exists (o_name o), x. split; [reflexivity|]. exists o, j. cbn. auto. }
    destruct (excludes_spec _ F2) as [[-> A2]|(x & -> & j & J & N)]; cbn [bind].
    2: { right. left. eexists. split; [reflexivity|]. exists o, j. cbn. auto. }
    destruct IH as [[-> A3]|[(p & -> & x & j & X)|(n & y & -> & x & j & X)]].
    + left. split; [reflexivity|]. intros x [<-|X] Z; [auto | now apply A3].
    + right. left. exists p. split; [reflexivity|]. exists x, j. cbn. tauto.
    + right. right. exists n, y. split; [reflexivity|]. exists x, j. cbn. tauto.
  - destruct IH as [[-> A3]|[(p & -> & x & j & X)|(n & y & -> & x & j & X)]].
    + left. split; [reflexivity|]. intros x [<-|X] Z; [congruence | now apply A3].
    + right. left. exists p. split; [reflexivity|]. exists x, j. cbn. tauto.
    + right. right. exists n, y. split; [reflexivity|]. exists x, j. cbn. tauto.
Qed.

Lemma checks : (check_all l l = Ok (Goes None) /\ supported (decls st) g /\ compatible (decls st) g) \/
  (exists p, check_all l l = Ok (Goes (Some p)) /\ ~ compatible (decls st) g) \/
  (exists n x, check_all l l = Ok (Ends (Depends n x)) /\ ~ supported (decls st) g).
Proof.
  destruct (all_spec l (fun o I => I)) as [[E A]|[(p & E & o & j & I & T & J & G)|(n & x & E & o & j & I & T & J & G)]].
  - left. split; [exact E|]. split; intros i d j N I J.
    + apply nth_back in N as (o & N & ->). pose proof (nth_error_In _ _ N) as X.
      apply (A o X); [now apply (defined_iff i o N) | exact J].
    + apply nth_back in N as (o & N & ->). pose proof (nth_error_In _ _ N) as X.
      apply (A o X); [now apply (defined_iff i o N) | exact J].
  - right. left. exists p. split; [exact E|]. intro C. apply In_nth_error in I as [i I].
    apply (C i (decl_of o) j (nth_same i o I)); [now apply (defined_iff i o I) | exact J | exact G].
  - right. right. exists n, x. split; [exact E|]. intro C. apply In_nth_error in I as [i I].
    apply G. apply (C i (decl_of o) j (nth_same i o I)); [now apply (defined_iff i o I) | exact J].
Qed.
End Checks.
