(** What exarg_parse leaves, and what axl-knife does with it. *)
From Verif Require Import Prelude ExargModel ExargSpec ExargExec ExargProofs.

(** the state that the checks return *)
Definition noted (st : exarg) (g : list (nat * option bytes)) (f : list bytes) (m : mode) (t : list (bytes * bytes)) : exarg :=
  mkExarg (given g (x_opts st)) f m (x_nofree st) t.

Lemma parse_goes st e args st' : ready st -> parse st (e :: args) = Ok (Goes st') ->
  exists g f m t, says (decls st) Any args g f /\ NoDup (map fst g) /\ complete (decls st) g /\
    st' = noted st g f m t /\ (x_nofree st = true -> f = []) /\
    ((t = [] /\ supported (decls st) g /\ compatible (decls st) g) \/ (t <> [] /\ ~ compatible (decls st) g)).
Proof.
  intros R H. pose proof R as (_ & RM & RP & RT). destruct args as [|a args].
  { cbn in H. destruct (check_required (x_opts st)) as [[]|] eqn:C; [|discriminate]. injection H as <-.
    exists [], [], MNone, []. split; [constructor|]. split; [constructor|].
    split; [|split; [unfold noted; cbn; destruct st; cbn in *; congruence | split; [easy|]]].
    - apply (required_iff st [] R); [constructor | intros i [] | exact C].
    - left. split; [reflexivity|]. split; intros i d j _ []. }
  change (match parse_loop st (a :: args) with
    | Ends w => Ok (Ends w)
    | Goes st =>
      match check_required (x_opts st) with
      | Ends w => Ok (Ends w)
      | Goes _ =>
        c <- check_all (x_opts st) (x_opts st) ;;
        match c with
        | Ends w => Ok (Ends w)
        | Goes None => Ok (Goes st)
        | Goes (Some p) =>
          Ok (Goes (mkExarg (x_opts st) (x_params st) (x_mode st) (x_nofree st) (x_told st ++ [p])))
        end
      end
    end = Ok (Goes st')) in H.
  destruct (parse_loop st (a :: args)) as [s1|] eqn:L; [|discriminate].
  apply (loop_says _ _ _ _ (le_n _)) in L as (g & f & m & S & -> & F & D & U).
  cbn [result x_opts x_params x_mode x_nofree x_told] in H. rewrite RM in S. rewrite RP, RT in H. cbn [app] in H.
  assert (B : forall i, In i (map fst g) -> i < length (x_opts st)).
  { intros i I. pose proof (says_range _ _ _ _ _ S i I) as Q. unfold decls in Q. now rewrite map_length in Q. }
  destruct (check_required (given g (x_opts st))) as [[]|] eqn:C; [|discriminate].
  apply (required_iff st g R D B) in C.
  destruct (checks st g R D B) as [(E & S1 & S2)|[(p & E & N)|(n & x & E & N)]]; rewrite E in H; cbn [bind] in H.
  - injection H as <-. exists g, f, m, []. unfold noted, result. rewrite RP, RT. repeat (split; [assumption || reflexivity|]). auto.
  - injection H as <-. exists g, f, m, [p]. unfold noted. repeat (split; [assumption || reflexivity|]). right. split; [discriminate | exact N].
  - discriminate.
Qed.

Lemma parse_accepts st e args g f : ready st -> says (decls st) Any args g f -> NoDup (map fst g) ->
  complete (decls st) g -> supported (decls st) g -> compatible (decls st) g -> (x_nofree st = true -> f = []) ->
  exists m, parse st (e :: args) = Ok (Goes (noted st g f m [])).
Proof.
  intros R S D C S1 S2 F. pose proof R as (_ & RM & RP & RT).
  assert (B : forall i, In i (map fst g) -> i < length (x_opts st)).
  { intros i I. pose proof (says_range _ _ _ _ _ S i I) as Q. unfold decls in Q. now rewrite map_length in Q. }
  pose proof (proj2 (required_iff st g R D B) C) as C'.
  destruct args as [|a args].
  { inversion S; subst. exists MNone. cbn in *. rewrite C'. cbn. unfold noted. cbn. destruct st; cbn in *; congruence. }
  destruct (loop_goes _ _ _ _ _ S st eq_refl) as [m L]; try assumption; [now rewrite RM | now apply ready_unused|].
  exists m. unfold parse. rewrite L. cbn [result x_opts x_params x_mode x_nofree x_told]. rewrite C'.
  destruct (checks st g R D B) as [(E & _)|[(p & _ & N)|(n & x & _ & N)]]; [|destruct (N S2)|destruct (N S1)].
  rewrite E. cbn [bind]. unfold noted, result. now rewrite RP, RT.
Qed.

Lemma parse_returns st e args : ready st -> exists o, parse st (e :: args) = Ok o.
Proof.
  intro R. pose proof R as (_ & RM & RP & RT). destruct args as [|a args]; [cbn; eauto|].
  unfold parse. destruct (parse_loop st (a :: args)) as [s1|w] eqn:L; [|eauto].
  apply (loop_says _ _ _ _ (le_n _)) in L as (g & f & m & S & -> & F & D & U).
  cbn [result x_opts x_params x_mode x_nofree x_told]. rewrite RM in S.
  assert (B : forall i, In i (map fst g) -> i < length (x_opts st)).
  { intros i I. pose proof (says_range _ _ _ _ _ S i I) as Q. unfold decls in Q. now rewrite map_length in Q. }
  destruct (check_required _) as [[]|]; [|eauto].
  destruct (checks st g R D B) as [(E & _)|[(p & E & N)|(n & x & E & N)]]; rewrite E; cbn [bind]; eauto.
Qed.

Lemma required_status l w : check_required l = Ends w -> status w <> 0%Z.
Proof.
  induction l as [|o l IH]; cbn; [discriminate|].
  destruct (negb (o_optional o) && negb (o_defined o)); [intro H; injection H as <-; discriminate | exact IH].
Qed.

Lemma loop_status n : forall args st w, length args <= n -> parse_loop st args = Ends w -> status w = 0%Z ->
  exists a s v s', In a args /\ option_in s a v s' /\ asks v.
Proof.
  induction n as [|n IH]; intros args st w L H Z; destruct args as [|a rest]; try discriminate; [cbn in L; lia|].
  cbn in L. cbn [parse_loop] in H.
  destruct (is_argument (x_mode st) a) as [m isarg] eqn:EA. destruct isarg; cbn [negb] in H.
  2: { destruct (x_nofree _); [injection H as <-; discriminate|].
    apply IH in H as (b & s & v & s' & I & O); [|lia | exact Z]. exists b, s, v, s'. split; [now right | exact O]. }
  apply argument_true in EA as (v & G & O). rewrite G in H.
  assert (K : asks v -> exists b s v s', In b (a :: rest) /\ option_in s b v s' /\ asks v).
  { intro A. exists a, (style_of (x_mode st)), v, (style_of m). split; [now left | auto]. }
  destruct (check_help v) eqn:CH; [apply K, asks_iff; now rewrite CH|].
  destruct (begins (s2b "usage") v) eqn:CU; [apply K, asks_iff; rewrite CU; apply orb_true_r|].
  cbn [x_opts set_mode] in H. destruct (lookup (x_opts st) v) as [i|]; [|injection H as <-; discriminate].
  destruct (nth_error (x_opts st) i) as [o|]; [|injection H as <-; discriminate].
  destruct (o_defined o); [injection H as <-; discriminate|].
  assert (N : forall st rest', length rest' <= n -> (forall b, In b rest' -> In b rest) -> parse_loop st rest' = Ends w ->
    exists b s v s', In b (a :: rest) /\ option_in s b v s' /\ asks v).
  { intros s1 r1 L1 S1 H1. apply IH in H1 as (b & s & x & s' & I & Q); [|exact L1 | exact Z].
    exists b, s, x, s'. split; [right; now apply S1 | exact Q]. }
  destruct (o_kind o).
  - eapply N; [|intros b I; exact I | exact H]. lia.
  - destruct rest as [|x rest]; [injection H as <-; discriminate|].
    destruct (is_argument _ x) as [m2 isv]. destruct isv; [injection H as <-; discriminate|].
    eapply N; [|intros b I; right; exact I | exact H]. cbn in L. lia.
  - destruct rest as [|x rest]; [injection H as <-; discriminate|].
    destruct (is_argument _ x) as [m2 isv]. destruct isv; [injection H as <-; discriminate|].
    eapply N; [|intros b I; right; exact I | exact H]. cbn in L. lia.
Qed.

Lemma parse_status st e args w : ready st -> parse st (e :: args) = Ok (Ends w) -> status w = 0%Z ->
  exists a s v s', In a args /\ option_in s a v s' /\ asks v.
Proof.
  intros R H Z. pose proof R as (_ & RM & RP & RT). destruct args as [|a args].
  { cbn in H. destruct (check_required (x_opts st)) eqn:C; cbn in H; [discriminate|]. injection H as ->.
    destruct (required_status _ _ C Z). }
  unfold parse in H. destruct (parse_loop st (a :: args)) as [s1|q] eqn:L.
  2: { injection H as ->. apply (loop_status _ _ _ _ (le_n _) L Z). }
  apply (loop_says _ _ _ _ (le_n _)) in L as (g & f & m & S & -> & F & D & U).
  cbn [result x_opts x_params x_mode x_nofree x_told] in H. rewrite RM in S.
  assert (B : forall i, In i (map fst g) -> i < length (x_opts st)).
  { intros i I. pose proof (says_range _ _ _ _ _ S i I) as Q. unfold decls in Q. now rewrite map_length in Q. }
  destruct (check_required _) as [[]|q] eqn:C; [|injection H as ->; destruct (required_status _ _ C Z)].
  destruct (checks st g R D B) as [(E & _)|[(p & E & N)|(n & x & E & N)]]; rewrite E in H; cbn [bind] in H; try discriminate.
  injection H as <-. discriminate.
Qed.

(** the answers of exarg_is_defined and exarg_get_string *)
Lemma answers_defined st g f m t w i d : ready st -> NoDup (map fst g) -> (forall i, In i (map fst g) -> i < length (x_opts st)) ->
  means (decls st) w i d -> (is_defined (noted st g f m t) w = true <-> In i (map fst g)).
Proof.
  intros R D B M. unfold is_defined, noted; cbn [x_opts].
  assert (M' : means (map decl_of (given g (x_opts st))) w i d) by (rewrite decls_given; exact M).
  rewrite (lookup_means _ _ _ _ M'). destruct M' as (E & _). apply nth_decl in E as (o & E & _). rewrite E.
  apply (defined_iff st g R D B i o E).
Qed.

Lemma answers_undefined st g f m t w : (forall i d, ~ means (decls st) w i d) -> is_defined (noted st g f m t) w = false.
Proof.
  intro N. unfold is_defined, noted; cbn [x_opts].
  assert (L : lookup (given g (x_opts st)) w = None) by (apply lookup_none; rewrite decls_given; exact N).
  now rewrite L.
Qed.

Lemma says_kinds ds s args g f : says ds s args g f -> forall i v d, In (i, v) g -> nth_error ds i = Some d ->
  (v = None <-> d_value d = Nothing).
Proof.
  induction 1; intros j x e J E; try (now apply (IHsays j x e)); cbn in J.
  - destruct J.
  - destruct J as [J|J]; [|now apply (IHsays j x e)]. injection J as <- <-. destruct H1 as (E1 & _).
    rewrite E in E1. injection E1 as ->. tauto.
  - destruct J as [J|J]; [|now apply (IHsays j x e)]. injection J as <- <-. destruct H1 as (E1 & _).
    rewrite E in E1. injection E1 as ->. split; [discriminate | tauto].
Qed.

Lemma answers_string st args g f m t w i d v : ready st -> NoDup (map fst g) -> says (decls st) Any args g f ->
  means (decls st) w i d -> d_value d = Text ->
  (get_string (noted st g f m t) w = Goes (Some v) <-> In (i, Some v) g).
Proof.
  intros R D S M T. unfold get_string, noted; cbn [x_opts].
  assert (M' : means (map decl_of (given g (x_opts st))) w i d) by (rewrite decls_given; exact M).
  pose proof (lookup_means _ _ _ _ M') as L. pose proof (lookup_range _ _ _ L) as LR. rewrite L.
  destruct M' as (E & _). apply nth_decl in E as (o & E & Ed). rewrite E.
  destruct (given g (x_opts st)) as [|gh gt] eqn:GG; [cbn in LR; lia|]. rewrite <- GG in E. clear L LR.
  assert (OK : o_kind o = AString) by (rewrite Ed in T; cbn in T; destruct (o_kind o); easy). rewrite OK.
  pose proof M as (E0 & _). apply nth_decl in E0 as (o0 & E0 & Ed0).
  destruct (in_dec Nat.eq_dec i (map fst g)) as [I|N].
  - apply in_map_iff in I as ([i' x] & Q & I). cbn in Q. subst i'.
    pose proof (says_kinds _ _ _ _ _ S i x d I (proj1 M)) as K. destruct x as [x|]; [|rewrite T in K; destruct K as [K _]; now specialize (K eq_refl)].
    rewrite (given_in g _ i (Some x) o0 D I E0) in E. injection E as <-.
    assert (OK0 : o_kind o0 = AString) by (rewrite Ed0 in T; cbn in T; destruct (o_kind o0); easy).
    unfold value_of. rewrite OK0. cbn. split.
    + intro Q. injection Q as <-. exact I.
    + intro J. assert (X : Some v = Some x); [|congruence].
      clear -D I J. induction g as [|[k y] g IH]; [destruct I|]. cbn in D. apply NoDup_cons_iff in D as [N D].
      destruct I as [I|I], J as [J|J].
      * congruence.
      * injection I as -> ->. destruct N. now apply (in_map fst) in J.
      * injection J as -> ->. destruct N. now apply (in_map fst) in I.
      * now apply IH.
  - rewrite given_fresh in E by exact N. rewrite E0 in E. injection E as ->. apply nth_error_In in E0.
    destruct R as [R' _]. destruct (R' _ E0) as (_ & SN & _). rewrite SN. split; [discriminate|].
    intro I. destruct N. now apply (in_map fst) in I.
Qed.

(** everything that a program can see once exarg_parse has returned *)
Lemma parse_reads prog st e args st' : do_steps start prog = Goes st -> parse st (e :: args) = Ok (Goes st') ->
  exists g f, says (decls st) Any args g f /\ NoDup (map fst g) /\ complete (decls st) g /\ x_params st' = f /\
    (forall w i d, means (decls st) w i d -> (is_defined st' w = true <-> In i (map fst g))) /\
    (forall w, (forall i d, ~ means (decls st) w i d) -> is_defined st' w = false) /\
    (forall w i d v, means (decls st) w i d -> d_value d = Text -> (get_string st' w = Goes (Some v) <-> In (i, Some v) g)) /\
    (x_nofree st = true -> f = []) /\
    ((x_told st' = [] /\ supported (decls st) g /\ compatible (decls st) g) \/ (x_told st' <> [] /\ ~ compatible (decls st) g)).
Proof.
  intros P H. apply start_ready in P. apply (parse_goes _ _ _ _ P) in H as (g & f & m & t & S & D & C & -> & F & K).
  assert (B : forall i, In i (map fst g) -> i < length (x_opts st)).
  { intros i I. pose proof (says_range _ _ _ _ _ S i I) as Q. unfold decls in Q. now rewrite map_length in Q. }
  exists g, f. repeat (split; [assumption || reflexivity|]).
  split; [intros w i d M; now apply (answers_defined st g f m t w i d)|].
  split; [intros w N; now apply answers_undefined|].
  split; [intros w i d v M T; now apply (answers_string st args g f m t w i d v)|].
  split; [exact F | exact K].
Qed.

Lemma parse_takes prog st e args g f : do_steps start prog = Goes st -> says (decls st) Any args g f -> NoDup (map fst g) ->
  complete (decls st) g -> supported (decls st) g -> compatible (decls st) g -> (x_nofree st = true -> f = []) ->
  exists st', parse st (e :: args) = Ok (Goes st') /\ x_told st' = [].
Proof.
  intros P S D C S1 S2 F. apply start_ready in P.
  destruct (parse_accepts st e args g f P S D C S1 S2 F) as [m E]. eexists. split; [exact E | reflexivity].
Qed.

Lemma parse_ends prog st e args : do_steps start prog = Goes st ->
  (exists st', parse st (e :: args) = Ok (Goes st')) \/
  (exists w, parse st (e :: args) = Ok (Ends w) /\
    (status w = 0%Z -> exists a s v s', In a args /\ option_in s a v s' /\ asks v)).
Proof.
  intro P. apply start_ready in P. destruct (parse_returns st e args P) as [[st'|w] E]; [left; eauto|].
  right. exists w. split; [exact E|]. exact (parse_status _ _ _ _ P E).
Qed.

(** the names of the options that a program can install *)
Definition distinct (l : list opt) : Prop :=
  forall i j d e, i < j -> nth_error (map decl_of l) i = Some d -> nth_error (map decl_of l) j = Some e ->
    ~ In (hd [] (d_names e)) (d_names d) /\ forall s, In s (tl (d_names d)) -> ~ In s (tl (d_names e)).

Lemma distinct_names l l' : distinct l -> map d_names (map decl_of l') = map d_names (map decl_of l) -> distinct l'.
Proof.
  intros H E i j d e L I J.
  assert (K : forall k x, nth_error (map decl_of l') k = Some x -> exists y, nth_error (map decl_of l) k = Some y /\ d_names x = d_names y).
  { intros k x X. apply (map_nth_error d_names) in X. rewrite E, nth_error_map in X.
    destruct (nth_error (map decl_of l) k) as [y|]; [|discriminate]. injection X as X. eauto. }
  destruct (K _ _ I) as (d' & I' & ->). destruct (K _ _ J) as (e' & J' & ->). exact (H i j d' e' L I' J').
Qed.

Lemma names_upd l i f : (forall o, d_names (decl_of (f o)) = d_names (decl_of o)) ->
  map d_names (map decl_of (upd l i f)) = map d_names (map decl_of l).
Proof.
  intro H. revert i. induction l as [|o l IH]; intros i; [reflexivity|]. destruct i; cbn [upd map]; [now rewrite H | now rewrite IH].
Qed.

Lemma step_distinct st s st' : distinct (x_opts st) -> do_step st s = Goes st' -> distinct (x_opts st').
Proof.
  intros R H. destruct s as [n s k|a b|a b|a|b]; cbn [do_step] in H.
  - unfold install in H. destruct (lookup (x_opts st) n) eqn:L; [discriminate|].
    match type of H with (if ?b then _ else _) = _ => destruct b eqn:C end; [discriminate|]. injection H as <-.
    cbn [set_opts x_opts]. intros i j d e Q I J. rewrite map_app in I, J.
    destruct (Nat.lt_ge_cases j (length (map decl_of (x_opts st)))) as [J1|J1].
    { rewrite nth_error_app1 in J by exact J1. rewrite nth_error_app1 in I by lia. exact (R i j d e Q I J). }
    rewrite nth_error_app2 in J by exact J1.
    assert (J2 : j = length (map decl_of (x_opts st))).
    { destruct (j - length (map decl_of (x_opts st))) as [|q] eqn:Z; [lia|]. destruct q; discriminate. }
    rewrite nth_error_app1 in I by lia. rewrite J2, Nat.sub_diag in J. injection J as <-.
    cbn [decl_of d_names o_name o_short hd tl]. split.
    + pose proof (nth_decl _ _ _ I) as (o & IO & ->). intro W. apply called_iff in W.
      clear -L IO W. unfold lookup in L. revert L IO. generalize 0. revert i. induction (x_opts st) as [|x l IH]; intros i q L IO; [destruct i; discriminate|].
      cbn in L. destruct i as [|i]; cbn in IO; [injection IO as ->; rewrite W in L; discriminate|].
      destruct (called x n); [discriminate|]. exact (IH i (S q) L IO).
    + intros t T1 T2. destruct s as [s|]; [|destruct T2]. destruct T2 as [<-|[]].
      apply nth_decl in I as (o & IO & ->). cbn [decl_of d_names tl] in T1. apply nth_error_In in IO.
      assert (X : existsb (fun o => match o_short o with Some t => begins s t | None => false end) (x_opts st) = true).
      { apply existsb_exists. exists o. split; [exact IO|]. destruct (o_short o); [|destruct T1].
        destruct T1 as [->|[]]. apply begins_iff. exists []. now rewrite app_nil_r. }
      congruence.
  - unfold add_dependency, add_relation in H. destruct (bytes_eqb a b); [discriminate|].
    destruct (lookup (x_opts st) a) as [i|]; [|discriminate]. destruct (lookup (x_opts st) b) as [j|]; [|discriminate].
    injection H as <-. apply (distinct_names _ _ R). now apply names_upd.
  - unfold add_exclusion, add_relation in H. destruct (bytes_eqb a b); [discriminate|].
    destruct (lookup (x_opts st) a) as [i|]; [|discriminate]. destruct (lookup (x_opts st) b) as [j|]; [|discriminate].
    injection H as <-. apply (distinct_names _ _ R). now apply names_upd.
  - injection H as <-. unfold set_obligatory. destruct (lookup (x_opts st) a) as [i|]; [|exact R].
    apply (distinct_names _ _ R). now apply names_upd.
  - injection H as <-. exact R.
Qed.

Lemma steps_distinct prog st i j d e : do_steps start prog = Goes st -> i < j ->
  nth_error (decls st) i = Some d -> nth_error (decls st) j = Some e ->
  ~ In (hd [] (d_names e)) (d_names d) /\ forall s, In s (tl (d_names d)) -> ~ In s (tl (d_names e)).
Proof.
  intro P. assert (R : distinct (x_opts st)); [|exact (R i j d e)].
  assert (R0 : distinct (x_opts start)) by (intros x y ? ? _ X; destruct x; discriminate).
  revert P R0. generalize start. induction prog as [|s prog IH]; intros s0 P R0; cbn in P; [now injection P as <-|].
  destruct (do_step s0 s) as [s1|] eqn:E; [|discriminate]. apply (IH s1 P). exact (step_distinct _ _ _ R0 E).
Qed.

(** numbers *)
Lemma digit_of k : k < 10 -> digit (ascii_of_nat (48 + k)) = Some (Z.of_nat k).
Proof. intro L. do 10 (destruct k as [|k]; [reflexivity|]). lia. Qed.

Lemma digits_app t k : forall acc, k < 10 -> (forall c, In c t -> digit c <> None) ->
  digits acc (t ++ [ascii_of_nat (48 + k)]) = (digits acc t * 10 + Z.of_nat k)%Z.
Proof.
  induction t as [|c t IH]; intros acc L A.
  - cbn [app digits]. rewrite (digit_of k L). reflexivity.
  - cbn [app digits]. destruct (digit c) eqn:E; [|destruct (A c (or_introl eq_refl) E)].
    apply IH; [exact L|]. intros x X. apply A. now right.
Qed.

Lemma numeral_digits t n : numeral t n -> (forall c, In c t -> digit c <> None) /\ digits 0 t = n /\ t <> [].
Proof.
  induction 1 as [k L|t n k N (A & E & NE) L].
  - split; [intros c [<-|[]]; rewrite (digit_of k L); discriminate|]. split; [|discriminate].
    cbn [digits]. rewrite (digit_of k L). lia.
  - split; [|split; [|now destruct t]].
    + intros c I. apply in_app_or in I as [I|[<-|[]]]; [now apply A | rewrite (digit_of k L); discriminate].
    + rewrite digits_app by assumption. lia.
Qed.

Lemma atoi_numeral t n : numeral t n -> atoi t = n.
Proof.
  intro N. apply numeral_digits in N as (A & E & NE). destruct t as [|c t]; [easy|].
  assert (D : digit c <> None) by (apply A; now left). unfold digit in D.
  destruct (Nat.leb 48 (nat_of_ascii c) && Nat.leb (nat_of_ascii c) 57) eqn:C; [|easy].
  apply andb_true_iff in C as [C1 C2]. apply Nat.leb_le in C1, C2.
  cbn [atoi]. replace (Nat.eqb (nat_of_ascii c) 32) with false by (symmetry; apply Nat.eqb_neq; lia).
  replace (Nat.leb (nat_of_ascii c) 13) with false by (symmetry; apply Nat.leb_gt; lia).
  rewrite andb_false_r. cbn [orb].
  destruct (Ascii.eqb_spec c "-") as [->|_]; [cbn in C1; lia|]. destruct (Ascii.eqb_spec c "+") as [->|_]; [cbn in C1; lia|].
  exact E.
Qed.

Lemma answers_int st args g f m t w i d v n : ready st -> NoDup (map fst g) -> says (decls st) Any args g f ->
  means (decls st) w i d -> d_value d = Number -> In (i, Some v) g -> numeral v n ->
  get_int (noted st g f m t) w = Goes n.
Proof.
  intros R D S M T I N. unfold get_int, noted; cbn [x_opts].
  assert (M' : means (map decl_of (given g (x_opts st))) w i d) by (rewrite decls_given; exact M).
  pose proof (lookup_means _ _ _ _ M') as L. pose proof (lookup_range _ _ _ L) as LR. rewrite L.
  destruct (given g (x_opts st)) as [|gh gt] eqn:GG; [cbn in LR; lia|]. rewrite <- GG.
  pose proof M as (E0 & _). apply nth_decl in E0 as (o0 & E0 & Ed0).
  rewrite (given_in g _ i (Some v) o0 D I E0).
  assert (OK0 : o_kind o0 = AInt) by (rewrite Ed0 in T; cbn in T; destruct (o_kind o0); easy).
  unfold value_of. rewrite OK0. cbn [put_int mark o_kind o_int]. rewrite OK0. f_equal. now apply atoi_numeral.
Qed.

Lemma parse_numbers prog st e args st' : do_steps start prog = Goes st -> parse st (e :: args) = Ok (Goes st') ->
  exists g f, says (decls st) Any args g f /\
    forall w i d v n, means (decls st) w i d -> d_value d = Number -> In (i, Some v) g -> numeral v n -> get_int st' w = Goes n.
Proof.
  intros P H. apply start_ready in P. apply (parse_goes _ _ _ _ P) in H as (g & f & m & t & S & D & C & -> & F & K).
  exists g, f. split; [exact S|]. intros w i d v n M T I N. exact (answers_int st args g f m t w i d v n P D S M T I N).
Qed.

(** a command line says one thing *)
Lemma option_one s a w s1 w' s2 : option_in s a w s1 -> option_in s a w' s2 -> w = w' /\ s1 = s2.
Proof.
  assert (Q : exists m, s = style_of m) by (destruct s; [exists MNone | exists MUnix | exists MWindows]; reflexivity).
  destruct Q as [m ->]. intros A B. apply argument_in in A as (m1 & A1 & A2 & ->). apply argument_in in B as (m2 & B1 & B2 & ->).
  rewrite A1 in B1. rewrite A2 in B2. split; congruence.
Qed.

Lemma means_one ds w i d j e : means ds w i d -> means ds w j e -> i = j /\ d = e.
Proof.
  intros (E1 & I1 & F1) (E2 & I2 & F2). destruct (Nat.lt_trichotomy i j) as [L|[->|L]].
  - destruct (F2 i d L E1 I1).
  - split; congruence.
  - destruct (F1 j e L E2 I2).
Qed.

Lemma says_one ds s args g f : says ds s args g f -> forall g' f', says ds s args g' f' -> g = g' /\ f = f'.
Proof.
  induction 1 as [s|s a args g f P S IH|s s' a w i d args g f O NA M V S IH|s s' a w i d v args g f O NA M V P S IH];
    intros g' f' H; inversion H; subst; try (now split);
    repeat match goal with
    | A : plain_in ?s ?a, B : option_in ?s ?a _ _ |- _ => destruct (A _ _ B)
    | A : option_in ?s ?a ?w _, B : option_in ?s ?a ?w' _ |- _ =>
      destruct (option_one _ _ _ _ _ _ A B); subst; clear B
    | A : means ?ds ?w _ _, B : means ?ds ?w _ _ |- _ => destruct (means_one _ _ _ _ _ _ A B); subst; clear B
    end; try congruence;
    match goal with A : says _ _ ?l _ _, IH : forall g f, says _ _ ?l g f -> _ |- _ => destruct (IH _ _ A); subst; now split | _ => idtac end.
Qed.

(** the text that is shown in lines *)
Lemma spaced_merge a b r : spaced (a :: b :: r) = spaced ((a ++ s2b " " ++ b) :: r).
Proof. destruct r; cbn [spaced]; [reflexivity|]. now rewrite <- !app_assoc. Qed.
Lemma spaced_cons a r : r <> [] -> spaced (a :: r) = a ++ " "%char :: spaced r.
Proof. destruct r; [easy | reflexivity]. Qed.

Lemma words_from_some c t : words_from c t <> [].
Proof. revert c. induction t as [|x t IH]; intro c; cbn; [discriminate|]. destruct (Ascii.eqb x " "); [discriminate | apply IH]. Qed.
Lemma words_spaced t : forall c, spaced (words_from c t) = c ++ t.
Proof.
  induction t as [|x t IH]; intro c; cbn [words_from]; [now rewrite app_nil_r|].
  destruct (Ascii.eqb_spec x " ") as [->|N].
  - rewrite spaced_cons by apply words_from_some. now rewrite IH.
  - now rewrite IH, <- app_assoc.
Qed.

Definition pending (line : option bytes) : list bytes := match line with Some l => [l] | None => [] end.
Definition summed (line : option bytes) (sum : nat) : Prop := match line with Some l => sum = S (length l) | None => sum = 0 end.

Lemma wrap_rest size fill : forall ws line sum, summed line sum ->
  exists ls, wrap_loop ws size fill line sum false = map (app fill) ls /\ spaced ls = spaced (pending line ++ ws) /\
    (ls = [] -> pending line ++ ws = []).
Proof.
  induction ws as [|w ws IH]; intros line sum S; cbn [wrap_loop].
  - destruct line as [l|]; cbn in S; subst sum; [exists [l] | exists []]; repeat split; discriminate || reflexivity.
  - set (nl := match line with Some l => l ++ s2b " " ++ w | None => w end).
    assert (SP : spaced (pending line ++ w :: ws) = spaced (nl :: ws)).
    { unfold nl. destruct line; cbn [pending app]; [apply spaced_merge | reflexivity]. }
    assert (SN : summed (Some nl) (sum + length w + 1)).
    { unfold nl. destruct line; cbn [summed] in *; subst; rewrite ?app_length; cbn; lia. }
    destruct (Nat.leb size (sum + length w + 1)).
    + destruct (IH None 0 eq_refl) as (ls & E & A & B). exists (nl :: ls). split; [cbn [map]; now rewrite E|]. split; [|discriminate].
      rewrite SP. cbn [pending app] in A, B. destruct ls as [|x ls].
      * now rewrite (B eq_refl).
      * destruct ws as [|y ws]; [cbn in E; discriminate|]. rewrite !spaced_cons by discriminate. now rewrite A.
    + destruct (IH (Some nl) _ SN) as (ls & E & A & B). exists ls. split; [exact E|]. rewrite SP. split; [exact A|].
      intro X. specialize (B X). discriminate.
Qed.

Lemma wrap_start size fill : forall ws line sum, summed line sum -> pending line ++ ws <> [] ->
  (forall l, line = Some l -> S (length l) < size) -> size <= S (length (spaced (pending line ++ ws))) ->
  exists h t, wrap_loop ws size fill line sum true = h :: map (app fill) t /\ spaced (h :: t) = spaced (pending line ++ ws).
Proof.
  induction ws as [|w ws IH]; intros line sum S NE L SZ; cbn [wrap_loop].
  - destruct line as [l|]; [|easy]. specialize (L l eq_refl). cbn in SZ. lia.
  - set (nl := match line with Some l => l ++ s2b " " ++ w | None => w end).
    assert (SP : spaced (pending line ++ w :: ws) = spaced (nl :: ws)).
    { unfold nl. destruct line; cbn [pending app]; [apply spaced_merge | reflexivity]. }
    assert (SN : summed (Some nl) (sum + length w + 1)).
    { unfold nl. destruct line; cbn [summed] in *; subst; rewrite ?app_length; cbn; lia. }
    destruct (Nat.leb_spec size (sum + length w + 1)) as [H|H].
    + destruct (wrap_rest size fill ws None 0 eq_refl) as (ls & E & A & B). exists nl, ls. split; [now rewrite E|].
      rewrite SP. cbn [pending app] in A, B. destruct ls as [|x ls].
      * now rewrite (B eq_refl).
      * destruct ws as [|y ws]; [cbn in E; discriminate|]. rewrite !spaced_cons by discriminate. now rewrite A.
    + destruct (IH (Some nl) _ SN) as (h & t & E & A).
      * discriminate.
      * intros l Q. injection Q as <-. cbn [summed] in SN. lia.
      * change (pending (Some nl) ++ ws) with (nl :: ws). rewrite SP in SZ. exact SZ.
      * exists h, t. split; [exact E|]. rewrite SP. exact A.
Qed.

Lemma wrap_whole text size fill : exists h t, wrap text size fill = h :: map (app fill) t /\ spaced (h :: t) = text.
Proof.
  unfold wrap. destruct (Nat.leb_spec (length text) size) as [H|H]; [exists text, []; split; reflexivity|].
  destruct (wrap_start size fill (words text) None 0 eq_refl) as (h & t & E & A).
  - apply words_from_some.
  - discriminate.
  - cbn [pending app]. unfold words. rewrite words_spaced. cbn. lia.
  - exists h, t. split; [exact E|]. rewrite A. cbn [pending app]. unfold words. now rewrite words_spaced.
Qed.

(** what a program says about two options *)
Lemma relation_kept (push : nat -> opt -> opt) st a b st' :
  add_relation push st a b = Goes st' ->
  exists i j d e, means (decls st) a i d /\ means (decls st) b j e /\ x_opts st' = upd (x_opts st) i (push j).
Proof.
  unfold add_relation. destruct (bytes_eqb a b); [discriminate|].
  destruct (lookup (x_opts st) a) as [i|] eqn:LA; [|discriminate].
  destruct (lookup (x_opts st) b) as [j|] eqn:LB; [|discriminate]. intro H. injection H as <-.
  apply lookup_some in LA as [d MA]. apply lookup_some in LB as [e MB]. exists i, j, d, e. auto.
Qed.

Lemma relations_kept st s a b st' : s = Dependency a b \/ s = Exclusion a b -> do_step st s = Goes st' ->
  exists i j d e d', means (decls st) a i d /\ means (decls st) b j e /\ nth_error (decls st') i = Some d' /\
    d_names d' = d_names d /\
    (s = Dependency a b -> d_needs d' = j :: d_needs d /\ d_forbids d' = d_forbids d) /\
    (s = Exclusion a b -> d_needs d' = d_needs d /\ d_forbids d' = j :: d_forbids d) /\
    forall k, k <> i -> nth_error (decls st') k = nth_error (decls st) k.
Proof.
  intros [-> | ->] H; cbn [do_step] in H; apply relation_kept in H as (i & j & d & e & MA & MB & E);
    pose proof MA as (N & _); apply nth_decl in N as (o & N & ->);
    exists i, j, (decl_of o), e; eexists; (split; [exact MA|]); (split; [exact MB|]);
    unfold decls; rewrite E; (split; [rewrite nth_error_map, nth_upd, Nat.eqb_refl, N; reflexivity|]);
    (split; [reflexivity|]); (split; [intro Q; try discriminate Q; split; reflexivity|]);
    (split; [intro Q; try discriminate Q; split; reflexivity|]);
    intros k K; rewrite !nth_error_map, nth_upd; apply not_eq_sym, Nat.eqb_neq in K; now rewrite K.
Qed.
