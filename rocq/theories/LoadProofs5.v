(** Content specifications of well-formed declarations. *)
From Verif Require Import Prelude StrModel StrSpec StrProofs StrProofs2 StrProofs3 TreeModel StreamModel StreamProofs ParseModel ParseProofs
  XmlSpec GramProofs GramProofs2 DtdModel DtdSpec DtdDocModel LoadModel LoadSpec LoadProofs LoadProofs2.
Open Scope Z_scope.
Local Arguments Z.of_nat : simpl never.
Local Arguments Z.to_nat : simpl never.
Local Arguments Z.add : simpl never.
Local Arguments Z.sub : simpl never.
Local Arguments Z.eqb : simpl never.
Local Arguments Z.ltb : simpl never.
Local Arguments Z.leb : simpl never.

(** ** names *)
(** names, and #PCDATA *)
Definition word_char (c : ascii) : bool := name_char c && negb (has c (str "(),|+*%;")).
Lemma tok_word x : forallb tok_char x = true -> forallb word_char x = true.
Proof.
  intros H. rewrite forallb_forall in H |- *. intros c I. specialize (H c I). unfold tok_char, word_char in *.
  apply andb_true_iff in H as [H1 H2]. rewrite H1. cbn [andb]. apply negb_true_iff in H2. apply negb_true_iff.
  unfold has in *. cbn [str s2b list_ascii_of_string existsb] in *. repeat match goal with H : (_ || _) = false |- _ => apply orb_false_iff in H as [? ?] end.
  repeat (apply orb_false_iff; split); assumption.
Qed.
Lemma tok_name x : is_tok x -> is_name x.
Proof.
  intros [N H]. split; [exact N|]. rewrite forallb_forall in H |- *. intros c I. specialize (H c I). apply andb_true_iff in H as [H _]. exact H.
Qed.
Lemma word_name x : forallb word_char x = true -> forallb name_char x = true.
Proof. intros H. rewrite forallb_forall in H |- *. intros c I. specialize (H c I). apply andb_true_iff in H as [H _]. exact H. Qed.
Lemma word_not c q : word_char c = true -> word_char q = false -> Ascii.eqb q c = false.
Proof. intros H1 H2. destruct (Ascii.eqb_spec q c) as [->|]; [congruence|reflexivity]. Qed.
Lemma stop_word c s : word_char c = true -> stop_at particle_stops (c :: s) = None.
Proof.
  intros H. assert (white c = false) as W. { apply name_white. apply andb_true_iff in H as [H _]. exact H. }
  unfold stop_at. rewrite is_ws_white, W, andb_false_r. unfold particle_stops. cbn [hit].
  change (ws_chunk (s2b " ")) with true. cbv iota.
  repeat match goal with |- context [ws_chunk ?x] => change (ws_chunk x) with false; cbv iota end.
  change (s2b ",") with [","%char]. change (s2b "|") with ["|"%char]. change (s2b ")") with [")"%char]. change (s2b "+") with ["+"%char].
  change (s2b "*") with ["*"%char]. change (s2b "?") with ["?"%char]. change (s2b "(") with ["("%char]. cbn [after].
  repeat match goal with |- context [Ascii.eqb ?q c] => rewrite (word_not c q H eq_refl) end. reflexivity.
Qed.
Lemma until_word x s r : forallb word_char x = true -> until particle_stops s = Some r ->
  until particle_stops (x ++ s) = let '(t, it, a, b) := r in Some (x ++ t, it, a, b).
Proof.
  intros H E. apply until_after; [|exact E]. intros a c b ->. apply stop_word. rewrite forallb_app in H. cbn [forallb] in H.
  apply andb_true_iff in H as [_ H]. apply andb_true_iff in H as [H _]. exact H.
Qed.

(** ** what may follow a particle *)
Inductive ending : ascii -> Z -> Prop := end_seq : ending "," 1 | end_alt : ending "|" 2 | end_close : ending ")" 3.
Lemma white_stop w s : white w = true -> until particle_stops (w :: s) = Some ([], 0, w :: s, s).
Proof. intros H. rewrite (until_here _ _ 0 1%nat); [reflexivity| |discriminate]. unfold stop_at. rewrite is_ws_white, H. reflexivity. Qed.
Lemma skip_cons w s : white w = true -> skip (w :: s) = skip s.
Proof. intros H. cbn [skip]. rewrite is_ws_white, H. reflexivity. Qed.

(** after the ")" of [cur] *)
Definition go (f : nat) (ty : el_type) (q : bytes * Z * open * list open) : res (option (bytes * (el_type * part))) :=
  let '(s, chunk, cur, stack) := q in
  if negb (chunk =? 3) || match stack with [] => false | _ => true end then t_spec f s ty cur stack else Ok (Some (s, (ty, top_of cur))).
Definition shut (f : nat) (s : bytes) (ty : el_type) (cur : open) (stack : list open) := go f ty (t_close s 3 cur stack).

Lemma cstr_word x : forallb word_char x = true -> cstr x = x.
Proof. intros H. apply cstr_id, name_nul, word_name, H. Qed.
Lemma name_end s ty cur stack x chunk s1 c1 s2 v nt :
  (if chunk =? 0 then t_which (skip s) chunks_of chunk else (s, chunk)) = (s1, c1) ->
  (if (c1 =? 4) || (c1 =? 5) || (c1 =? 6) then t_separator s1 else Some (s1, c1)) = Some (s2, v) ->
  retype (o_ty cur) v = Some nt ->
  t_name s ty cur stack x chunk =
    (let cur' := Open nt (o_t cur) (o_ps cur ++ [Leaf x (times_of c1)]) in
     let ty' := retype_element ty v x (length (o_ps cur ++ [Leaf x (times_of c1)])) in
     let '(s', c', o', k') := if v =? 3 then t_close s2 v cur' stack else (s2, v, cur', stack) in Some (s', c', ty', o', k')).
Proof.
  intros E1 E2 E3. unfold t_name. rewrite E1, E2. change (o_ty (add_part cur (Leaf x (times_of c1)))) with (o_ty cur). rewrite E3. reflexivity.
Qed.
Lemma leaf_step x r t w e v k ty cur stack nt f : x <> [] -> forallb word_char x = true -> rep_text r t -> blank w -> ending e v ->
  retype (o_ty cur) v = Some nt ->
  t_spec (S f) (x ++ r ++ w ++ e :: k) ty cur stack =
    let cur' := Open nt (o_t cur) (o_ps cur ++ [Leaf x t]) in
    let ty' := retype_element ty v x (length (o_ps cur ++ [Leaf x t])) in
    if v =? 3 then shut f k ty' cur' stack else t_spec f k ty' cur' stack.
Proof.
  intros N W R B En Rt. cbn [t_spec]. destruct x as [|c x]; [congruence|]. assert (Wc : word_char c = true) by (cbn [forallb] in W; apply andb_true_iff in W; tauto).
  assert (Sk : forall z, skip ((c :: x) ++ z) = (c :: x) ++ z).
  { intros z. cbn [app]. apply skip_here. apply name_white. apply andb_true_iff in Wc as [Wc _]. exact Wc. }
  rewrite Sk. replace (after (s2b "(") ((c :: x) ++ r ++ w ++ e :: k)) with (@None bytes).
  2:{ change (s2b "(") with ["("%char]. cbn [app after]. rewrite (word_not c "(" Wc eq_refl). reflexivity. }
  assert (Cx : cstr (c :: x) = c :: x) by (apply cstr_word; exact W).
  (* the name and what follows it *)
  assert (E : exists chunk b, until particle_stops (r ++ w ++ e :: k) = Some ([], chunk, r ++ w ++ e :: k, b) /\ (chunk =? 8) = false /\
            t_name b ty cur stack (c :: x) chunk =
              (let cur' := Open nt (o_t cur) (o_ps cur ++ [Leaf (c :: x) t]) in
               let ty' := retype_element ty v (c :: x) (length (o_ps cur ++ [Leaf (c :: x) t])) in
               let '(s', c', o', k') := if v =? 3 then t_close k v cur' stack else (k, v, cur', stack) in Some (s', c', ty', o', k'))).
  { assert (We : white e = false) by (inversion En; reflexivity).
    assert (Sep : t_separator (w ++ e :: k) = Some (k, v)) by (unfold t_separator; rewrite skip_app_here by assumption; destruct En; reflexivity).
    destruct R.
    - cbn [app]. destruct w as [|w0 w].
      + cbn [app]. exists v, k. split; [destruct En; reflexivity|]. split; [destruct En; reflexivity|].
        rewrite (name_end k ty cur stack (c :: x) v k v k v nt); [destruct En; reflexivity|destruct En; reflexivity|destruct En; reflexivity|exact Rt].
      + assert (white w0 = true /\ blank w) as [Hw0 Hw] by (unfold blank in B; cbn [forallb] in B; apply andb_true_iff in B; exact B).
        cbn [app]. exists 0, (w ++ e :: k). split; [apply white_stop; exact Hw0|]. split; [reflexivity|].
        rewrite (name_end (w ++ e :: k) ty cur stack (c :: x) 0 k v k v nt); [destruct En; reflexivity| |destruct En; reflexivity|exact Rt].
        change (0 =? 0) with true. cbv iota. rewrite skip_app_here by assumption. destruct En; reflexivity.
    - exists 6, (w ++ e :: k). split; [reflexivity|]. split; [reflexivity|]. rewrite (name_end _ ty cur stack _ 6 (w ++ e :: k) 6 k v nt); [reflexivity|reflexivity|exact Sep|exact Rt].
    - exists 5, (w ++ e :: k). split; [reflexivity|]. split; [reflexivity|]. rewrite (name_end _ ty cur stack _ 5 (w ++ e :: k) 5 k v nt); [reflexivity|reflexivity|exact Sep|exact Rt].
    - exists 4, (w ++ e :: k). split; [reflexivity|]. split; [reflexivity|]. rewrite (name_end _ ty cur stack _ 4 (w ++ e :: k) 4 k v nt); [reflexivity|reflexivity|exact Sep|exact Rt]. }
  destruct E as (chunk & b & E1 & E2 & E3). rewrite (until_word _ _ _ W E1). rewrite app_nil_r, E2, Cx, E3. cbv zeta.
  destruct (v =? 3) eqn:V.
  - apply Z.eqb_eq in V. subst v. unfold shut, go. destruct (t_close k 3 _ stack) as [[[s' c'] o'] k']. reflexivity.
  - cbn [negb orb]. rewrite V. reflexivity.
Qed.

(** ** closing *)
Lemma t_spec_skip f s ty cur stack : t_spec f (skip s) ty cur stack = t_spec f s ty cur stack.
Proof. destruct f; [reflexivity|]. cbn [t_spec]. rewrite skip_skip. reflexivity. Qed.
Lemma t_spec_blank f w s ty cur stack : blank w -> t_spec f (w ++ s) ty cur stack = t_spec f s ty cur stack.
Proof. intros B. rewrite <- t_spec_skip, skip_blank by exact B. apply t_spec_skip. Qed.
(** [k] is not a repetition *)
Definition no_rep (s : bytes) : Prop := match s with c :: _ => c <> "?"%char /\ c <> "+"%char /\ c <> "*"%char | [] => True end.
Lemma reps_read r t w c k : rep_text r t -> blank w -> white c = false -> no_rep (c :: k) ->
  skip (fst (t_which (skip (r ++ w ++ c :: k)) reps_of TOne)) = c :: k /\ snd (t_which (skip (r ++ w ++ c :: k)) reps_of TOne) = t.
Proof.
  intros R B Wc (N1 & N2 & N3). destruct R; try (split; [|reflexivity]; apply skip_app_here; assumption).
  cbn [app]. rewrite skip_app_here by assumption. unfold reps_of. change (s2b "?") with ["?"%char]. change (s2b "+") with ["+"%char]. change (s2b "*") with ["*"%char].
  cbn [t_which after].
  destruct (Ascii.eqb_spec "?" c); [congruence|]. destruct (Ascii.eqb_spec "+" c); [congruence|]. destruct (Ascii.eqb_spec "*" c); [congruence|].
  cbn [fst snd]. split; [apply skip_here; assumption|reflexivity].
Qed.
Lemma close_step f r t w c v k ty cur up stack : rep_text r t -> blank w -> ending c v -> (v <> 3 -> after (s2b ")") (skip k) = None) ->
  shut f (r ++ w ++ c :: k) ty cur (up :: stack) =
    let up' := add_part up (Group (o_ty cur) t (o_ps cur)) in
    if v =? 3 then shut f k ty up' stack else t_spec f k ty up' stack.
Proof.
  intros R B En Nk. unfold shut at 1. cbn [t_close].
  destruct (reps_read r t w c k R B) as [E1 E2]; [inversion En; reflexivity|inversion En; repeat split; discriminate|].
  destruct (t_which (skip (r ++ w ++ c :: k)) reps_of TOne) as [s1 t1]. cbn [fst snd] in *. subst t1. rewrite E1.
  inversion En; subst.
  - change (t_which ("," :: k)%char seps_of 3) with (k, 1). cbv beta iota. rewrite Nk by discriminate. unfold go. change (1 =? 3) with false. cbn [negb orb]. apply t_spec_skip.
  - change (t_which ("|" :: k)%char seps_of 3) with (k, 2). cbv beta iota. rewrite Nk by discriminate. unfold go. change (2 =? 3) with false. cbn [negb orb]. apply t_spec_skip.
  - change (t_which (")" :: k)%char seps_of 3) with ((")" :: k)%char, 3). cbv beta iota. rewrite (skip_here ")" k) by reflexivity.
    change (after (s2b ")") (")" :: k)%char) with (Some k). reflexivity.
Qed.
Lemma close_end f r t w k ty cur : rep_text r t -> blank w ->
  shut f (r ++ w ++ ">"%char :: k) ty cur [] = Ok (Some (">"%char :: k, (ty, top_of (Open (o_ty cur) t (o_ps cur))))).
Proof.
  intros R B. unfold shut. cbn [t_close].
  destruct (reps_read r t w ">" k R B) as [E1 E2]; [reflexivity|repeat split; discriminate|].
  destruct (t_which (skip (r ++ w ++ ">"%char :: k)) reps_of TOne) as [s1 t1]. cbn [fst snd] in *. subst t1. rewrite E1. reflexivity.
Qed.

(** ** what the loader makes of a specification *)
Fixpoint ld (p : part) : part :=
  match p with
  | Leaf x t => Leaf x t
  | Group ty t ps => Group (if shown ps then ty else Undef) t (map ld ps)
  end.
Definition ty_of (c : ascii) : nested := if Ascii.eqb c "|" then Choice else Sequence.
Definition sep (c : ascii) (v : Z) : Prop := (c = ","%char /\ v = 1) \/ (c = "|"%char /\ v = 2).
Definition fits (ty : nested) (c : ascii) : Prop := ty = Undef \/ ty = ty_of c.
Lemma sep_end c v : sep c v -> ending c v /\ v <> 3.
Proof. intros [[-> ->]|[-> ->]]; (split; [constructor|discriminate]). Qed.
Lemma retype_fits ty c v : sep c v -> fits ty c -> retype ty v = Some (ty_of c).
Proof. intros [[-> ->]|[-> ->]] [->| ->]; reflexivity. Qed.

Scheme cp_ind2 := Induction for cp_text Sort Prop with items_ind2 := Induction for items_text Sort Prop.
Combined Scheme cp_items_ind from cp_ind2, items_ind2.

Lemma tok_head x : is_tok x -> exists c r, x = c :: r /\ white c = false /\ c <> ")"%char /\ c <> "("%char /\ c <> "%"%char.
Proof.
  intros [N H]. destruct x as [|c x]; [congruence|]. exists c, x. split; [reflexivity|]. cbn [forallb] in H. apply andb_true_iff in H as [H _].
  apply andb_true_iff in H as [H1 H2]. split; [apply name_white; exact H1|]. split; [|split]; intros ->; discriminate.
Qed.
Lemma cp_head b p : cp_text b p -> exists c r, b = c :: r /\ white c = false /\ c <> ")"%char.
Proof.
  intros H. destruct H as [x r t T R|ty c b ps r t S I R]; [|do 2 eexists; split; [reflexivity|]; split; [reflexivity|discriminate]].
  destruct (tok_head x T) as (c & y & -> & W & N & _). exists c, (y ++ r). auto.
Qed.
Lemma items_head c b ps k : items_text c b ps -> after (s2b ")") (skip (b ++ k)) = None.
Proof.
  assert (G : forall w b p z, blank w -> cp_text b p -> after (s2b ")") (skip (w ++ b ++ z)) = None).
  { intros w b0 p z B C. destruct (cp_head b0 p C) as (h & r & -> & W & N). cbn [app]. rewrite skip_app_here by assumption.
    change (s2b ")") with [")"%char]. cbn [after]. destruct (Ascii.eqb_spec ")" h); [congruence|reflexivity]. }
  intros H. destruct H as [c w b p w' B C B'|c w b p w' u ps B C B' I]; rewrite <- !app_assoc; eapply G; eassumption.
Qed.

Lemma open_step f z ty cur stack : t_spec (S f) (str "(" ++ z) ty cur stack = t_spec f z ty open_new (cur :: stack).
Proof. reflexivity. Qed.
Lemma spec_read :
  (forall b p (C : cp_text b p),
    (forall c v k w ty cur stack, sep c v -> blank w -> after (s2b ")") (skip k) = None -> fits (o_ty cur) c ->
      exists n, forall f, t_spec (n + f) (b ++ w ++ c :: k) ty cur stack =
        t_spec f k ty (Open (if is_leaf p then ty_of c else o_ty cur) (o_t cur) (o_ps cur ++ [ld p])) stack) /\
    (forall k w ty cur stack, blank w ->
      exists n, forall f, t_spec (n + f) (b ++ w ++ ")"%char :: k) ty cur stack =
        shut f k ty (Open (o_ty cur) (o_t cur) (o_ps cur ++ [ld p])) stack)) /\
  (forall c b ps (I : items_text c b ps),
    (exists v, sep c v) -> forall k ty cur stack, fits (o_ty cur) c ->
      exists n, forall f, t_spec (n + f) (b ++ ")"%char :: k) ty cur stack =
        shut f k ty (Open (if shown ps then ty_of c else o_ty cur) (o_t cur) (o_ps cur ++ map ld ps)) stack).
Proof.
  apply cp_items_ind.
  - (* a name *)
    intros x r t T R. pose proof (tok_word x (proj2 T)) as W. destruct T as [N T].
    assert (NP : bytes_eqb x pcdata = false).
    { destruct (bytes_eqb x pcdata) eqn:E; [|reflexivity]. apply bytes_eqb_eq in E. subst x. discriminate. }
    split.
    + intros c v k w ty cur stack Sp B Nk F. exists 1%nat. intros f. rewrite <- !app_assoc. cbn [Nat.add].
      destruct (sep_end c v Sp) as [En V3]. rewrite (leaf_step x r t w c v k ty cur stack (ty_of c) f N W R B En (retype_fits _ _ _ Sp F)).
      cbv zeta. replace (v =? 3) with false by (symmetry; apply Z.eqb_neq; exact V3). unfold retype_element.
      replace (v =? 3) with false by (symmetry; apply Z.eqb_neq; exact V3). reflexivity.
    + intros k w ty cur stack B. exists 1%nat. intros f. rewrite <- !app_assoc. cbn [Nat.add].
      rewrite (leaf_step x r t w ")" 3 k ty cur stack (o_ty cur) f N W R B end_close eq_refl). cbv zeta. change (3 =? 3) with true. cbv iota.
      unfold retype_element. rewrite NP, andb_false_r. reflexivity.
  - (* a group *)
    intros ty0 c0 b ps r t Sp I IH R.
    assert (exists v, sep c0 v /\ ty_of c0 = ty0) as (v0 & S0 & T0).
    { destruct Sp as [[-> ->]|(-> & -> & _)]; [exists 1|exists 2]; (split; [|reflexivity]); [left|right]; auto. }
    specialize (IH (ex_intro _ v0 S0)). split.
    + intros c v k w ty cur stack Sc B Nk F.
      destruct (IH (r ++ w ++ c :: k) ty open_new (cur :: stack) (or_introl eq_refl)) as (n & E). exists (S n). intros f. cbn [Nat.add].
      rewrite <- !app_assoc. rewrite open_step.
      change (str ")" ++ r ++ w ++ c :: k) with (")"%char :: r ++ w ++ c :: k). rewrite E.
      destruct (sep_end c v Sc) as [En V3]. rewrite (close_step f r t w c v k ty _ cur stack R B En (fun _ => Nk)). cbv zeta.
      replace (v =? 3) with false by (symmetry; apply Z.eqb_neq; exact V3). cbn [open_new o_ty o_t o_ps app is_leaf ld]. rewrite T0. reflexivity.
    + intros k w ty cur stack B.
      destruct (IH (r ++ w ++ ")"%char :: k) ty open_new (cur :: stack) (or_introl eq_refl)) as (n & E). exists (S n). intros f. cbn [Nat.add].
      rewrite <- !app_assoc. rewrite open_step.
      change (str ")" ++ r ++ w ++ ")"%char :: k) with (")"%char :: r ++ w ++ ")"%char :: k). rewrite E.
      rewrite (close_step f r t w ")" 3 k ty _ cur stack R B end_close) by congruence. cbv zeta. change (3 =? 3) with true. cbv iota.
      cbn [open_new o_ty o_t o_ps app ld]. rewrite T0. reflexivity.
  - (* the last item *)
    intros c w b p w' B C [_ IH] B' _ k ty cur stack F. destruct (IH k w' ty cur stack B') as (n & E). exists n. intros f.
    rewrite <- !app_assoc, t_spec_blank by exact B. rewrite E. reflexivity.
  - (* another item *)
    intros c w b p w' u ps B C [IH _] B' I IHI [v Sp] k ty cur stack F.
    destruct (IH c v (u ++ ")"%char :: k) w' ty cur stack Sp B' (items_head c u ps _ I) F) as (n1 & E1).
    set (cur1 := Open (if is_leaf p then ty_of c else o_ty cur) (o_t cur) (o_ps cur ++ [ld p])) in *.
    destruct (IHI (ex_intro _ v Sp) k ty cur1 stack) as (n2 & E2).
    { subst cur1. cbn [o_ty]. destruct (is_leaf p); [right; reflexivity|exact F]. }
    exists (n1 + n2)%nat. intros f. rewrite <- Nat.add_assoc, <- !app_assoc, t_spec_blank by exact B. cbn [app]. rewrite E1, E2.
    subst cur1. cbn [o_ty o_t o_ps map]. rewrite <- app_assoc. cbn [app]. f_equal. f_equal.
    assert (ps <> []) as Np by (destruct I; discriminate). unfold shown. destruct ps as [|p2 ps]; [congruence|].
    change (removelast (p :: p2 :: ps)) with (p :: removelast (p2 :: ps)). cbn [existsb]. destruct (is_leaf p); cbn [orb]; [|reflexivity].
    destruct (existsb is_leaf (removelast (p2 :: ps))); reflexivity.
Qed.
