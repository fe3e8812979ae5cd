(** Completeness of the validation of content specifications. *)
From Verif Require Import Prelude DtdModel DtdSpec DtdProofs.
Open Scope nat_scope.
Open Scope list_scope.

Lemma memb_in x l : memb x l = true <-> In x l.
Proof.
  unfold memb. rewrite existsb_exists. split.
  - intros (y & I & E). apply bytes_eqb_eq in E. subst y. exact I.
  - intros I. exists x. split; [exact I|apply bytes_eqb_refl].
Qed.
Lemma apart_in a b x : apart a b = true -> In x a -> ~ In x b.
Proof. unfold apart. rewrite forallb_forall. intros H I J. specialize (H x I). apply memb_in in J. rewrite J in H. discriminate. Qed.
(** the next name is not one of these *)
Definition off (s : list bytes) (w : word) : Prop := match w with [] => True | x :: _ => ~ In x s end.
Definition on (s : list bytes) (w : word) : Prop := match w with [] => True | x :: _ => In x s end.
Lemma off_app s t w : off (s ++ t) w <-> off s w /\ off t w.
Proof. destruct w; cbn; [tauto|]. rewrite in_app_iff. tauto. Qed.
Lemma off_incl s t w : (forall x, In x s -> In x t) -> off t w -> off s w.
Proof. destruct w; cbn; [tauto|]. auto. Qed.
Lemma on_apart a b w : apart a b = true -> on a w -> off b w.
Proof. destruct w as [|x w]; cbn; [trivial|]. intros H I. exact (apart_in a b x H I). Qed.

(** ** the words of a specification *)
Lemma star_nonempty (L : words) w : star L w -> w <> [] -> exists u v, w = u ++ v /\ u <> [] /\ L u /\ star L v.
Proof.
  induction 1 as [|u v Hu Hv IH]; intros N; [contradiction|]. destruct u as [|x u].
  - cbn in *. exact (IH N).
  - exists (x :: u), v. repeat split; auto; discriminate.
Qed.
Lemma in_order_nil_all (Ls : list words) : in_order Ls [] -> forall L, In L Ls -> L [].
Proof.
  induction Ls as [|L Ls IH]; cbn; [intros _ M []|]. intros (u & v & E & Hu & Hv) M I. symmetry in E. apply app_eq_nil in E as [-> ->]. destruct I as [<-|I]; [exact Hu|exact (IH Hv M I)].
Qed.
Lemma reps_nil_inv t (L : words) : reps t L [] -> optional t = true \/ (known_times t = true /\ L []).
Proof.
  destruct t; cbn; auto; try contradiction. intros (u & v & E & Hu & Hv). symmetry in E. apply app_eq_nil in E as [-> ->]. auto.
Qed.
Lemma lang_nil p : lang p [] -> nullable p = true.
Proof.
  induction p as [x t|ty t ps IH] using part_ind2.
  - cbn [lang nullable]. intros H. apply reps_nil_inv in H as [H|[_ H]]; [exact H|discriminate].
  - rewrite lang_group. intros H. cbn [nullable]. apply orb_true_iff. apply reps_nil_inv in H as [H|[K H]]; [auto|right]. apply andb_true_iff. split; [exact K|].
    destruct ty; cbn [is_sequence once] in *.
    1,2: destruct H as (L & I & H); apply in_map_iff in I as (q & <- & I); apply existsb_exists; exists q; auto.
    apply forallb_forall. intros q I. apply IH; [exact I|]. apply (in_order_nil_all _ H). apply in_map, I.
Qed.
Lemma once_nil_inv ty ps : once ty ps [] -> null_once ty ps = true.
Proof.
  unfold null_once. destruct ty; cbn [is_sequence once]; intros H.
  1,2: destruct H as (L & I & H); apply in_map_iff in I as (q & <- & I); apply existsb_exists; exists q; split; [exact I|apply lang_nil, H].
  apply forallb_forall. intros q I. apply lang_nil, (in_order_nil_all _ H), in_map, I.
Qed.
Lemma det_group ty t ps : det (Group ty t ps) = true -> (forall q, In q ps -> det q = true) /\ null_once ty ps = false /\ (if is_sequence ty then seq_det ps else choice_det ps) = true /\ t <> TUnknown.
Proof.
  cbn [det]. intros H. apply andb_true_iff in H as [H H4]. apply andb_true_iff in H as [H H3]. apply andb_true_iff in H as [H1 H2]. rewrite forallb_forall in H1. apply negb_true_iff in H2. repeat split; auto. intros ->. discriminate.
Qed.
Lemma det_optional p : det p = true -> nullable p = true -> optional (repeat_of p) = true.
Proof.
  destruct p as [x t|ty t ps]; cbn [nullable repeat_of]; [auto|]. intros D N. destruct (det_group _ _ _ D) as (_ & Z & _). apply orb_true_iff in N as [N|N]; [exact N|]. apply andb_true_iff in N as [_ N]. unfold null_once in Z. congruence.
Qed.
Lemma det_skips p : det p = true -> optional (repeat_of p) = true -> skips p = true.
Proof. destruct p as [x t|ty t ps]; cbn [repeat_of skips]; [auto|]. intros D O. destruct t; try discriminate; reflexivity. Qed.
Lemma seq_on ps : (forall q, In q ps -> det q = true) -> (forall q, In q ps -> forall w, lang q w -> on (starts q) w) -> forall w, in_order (map lang ps) w -> on (starts_once Sequence ps) w.
Proof.
  unfold starts_once. cbn [is_sequence]. induction ps as [|q ps IH]; intros D H w O; cbn in O; [subst w; exact I|]. destruct O as (u & v & -> & Hu & Hv). cbn [map seq_starts]. destruct u as [|x u].
  - rewrite (det_skips q (D q (or_introl eq_refl)) (det_optional q (D q (or_introl eq_refl)) (lang_nil q Hu))). specialize (IH (fun r J => D r (or_intror J)) (fun r J => H r (or_intror J)) v Hv). cbn. destruct v; cbn in *; [exact I|]. apply in_or_app. auto.
  - specialize (H q (or_introl eq_refl) _ Hu). cbn in *. apply in_or_app. auto.
Qed.
Lemma on_star s (L : words) w : (forall w, L w -> on s w) -> star L w -> on s w.
Proof. intros H. induction 1 as [|u v Hu Hv IH]; [exact I|]. destruct u; cbn; [exact IH|]. exact (H _ Hu). Qed.
Lemma on_reps t s (L : words) w : (forall w, L w -> on s w) -> reps t L w -> on s w.
Proof.
  intros H. destruct t; cbn; try contradiction; auto.
  - intros [->|R]; [exact I|auto].
  - apply on_star, H.
  - intros (u & v & -> & Hu & Hv). apply (on_star s L); [exact H|]. constructor; assumption.
Qed.
Lemma once_on ty ps : (forall q, In q ps -> det q = true) -> (forall q, In q ps -> forall w, lang q w -> on (starts q) w) -> forall w, once ty ps w -> on (starts_once ty ps) w.
Proof.
  intros D H w O. destruct ty; cbn [once] in O; [| |apply seq_on; assumption].
  1,2: destruct O as (L & J & O); apply in_map_iff in J as (q & <- & J); specialize (H q J w O); unfold starts_once; cbn [is_sequence]; destruct w; cbn in *; [exact I|]; apply in_flat_map; exists q; split; [exact J|exact H].
Qed.
Lemma lang_on p : det p = true -> forall w, lang p w -> on (starts p) w.
Proof.
  induction p as [x t|ty t ps IH] using part_ind2; intros D w L.
  - cbn [lang] in L. cbn [starts]. apply (on_reps t [x] (fun w => w = [x])); [|exact L]. intros v ->. cbn. auto.
  - rewrite lang_group in L. destruct (det_group _ _ _ D) as (D1 & _). apply (on_reps t (starts_once ty ps) (once ty ps)); [|exact L]. apply once_on; [exact D1|]. intros q I. apply IH; auto.
Qed.

Section Complete.
Variable kids : list bytes.
Variable fuel : nat.
(** what is left at a position *)
Definition left (pos : nat) (w : word) : Prop := skipn pos kids = w /\ pos <= length kids.
Lemma left_nil pos : left pos [] -> nth_error kids pos = None /\ pos = length kids.
Proof.
  intros [E L]. assert (length (skipn pos kids) = 0) by (rewrite E; reflexivity). rewrite skipn_length in H. split; [apply nth_error_None|]; lia.
Qed.
Lemma left_cons pos x w : left pos (x :: w) -> nth_error kids pos = Some x /\ left (S pos) w /\ pos < length kids.
Proof.
  intros [E L]. assert (E2 : length (skipn pos kids) = S (length w)) by (rewrite E; reflexivity). rewrite skipn_length in E2. unfold left. split; [|split; [split|]; try lia].
  - clear E2 L. revert kids E. induction pos as [|pos IH]; intros [|y l] E; cbn in *; try discriminate; [congruence|apply IH, E].
  - change (S pos) with (1 + pos). rewrite Nat.add_comm, <- skipn_plus, E. reflexivity.
Qed.
Lemma left_app pos u w : left pos (u ++ w) -> left (pos + length u) w.
Proof.
  revert pos. induction u as [|x u IH]; intros pos H; cbn [length app] in *; [rewrite Nat.add_0_r; exact H|]. apply left_cons in H as (_ & H & _). specialize (IH _ H). replace (pos + S (length u)) with (S pos + length u) by lia. exact IH.
Qed.
Lemma left_bound pos w : left pos w -> pos + length w = length kids.
Proof. intros [E L]. assert (length (skipn pos kids) = length w) by (rewrite E; reflexivity). rewrite skipn_length in H. lia. Qed.

(** ** names *)
Lemma star_only_cons y u : star (only y) u -> forall x w, u = x :: w -> x = y /\ star (only y) w.
Proof. induction 1 as [|a b Ha Hb IH]; intros x w E; [discriminate|]. unfold only in Ha. subst a. cbn in E. injection E as <- <-. auto. Qed.
Lemma leaf_rep_complete y t last : t = TMany \/ t = TPlus -> forall u k om pos rest, star (only y) u -> (om = false -> t = TPlus -> u <> []) -> left pos (u ++ rest) -> off [y] rest -> length u < k -> forall st, (om = true -> st = true) ->
  exists s, leaf_loop kids k y t last om st pos = Ok s /\ match s with Next p' _ => p' = pos + length u | Return b p' => b = true /\ p' = pos + length u /\ p' = length kids end.
Proof.
  intros T u. induction u as [|x u IH]; intros k om pos rest Su Nu Lf Of Lk st So; (destruct k as [|k]; [cbn in Lk; lia|]); cbn [app length] in *.
  - rewrite Nat.add_0_r. destruct rest as [|z rest].
    + apply left_nil in Lf as [En ->]. cbn [leaf_loop]. rewrite En. eexists. split; [reflexivity|]. unfold exhausted. destruct om.
      * rewrite (So eq_refl). destruct T as [->| ->]; cbn [times_eqb andb orb]; [auto|]. destruct last; auto.
      * destruct T as [->| ->]; cbn [times_eqb andb orb]; [auto|]. exfalso. apply Nu; reflexivity.
    + apply left_cons in Lf as (En & Lf & _). cbn [leaf_loop]. rewrite En. assert (Ez : bytes_eqb z y = false). { destruct (bytes_eqb z y) eqn:Ez; [|reflexivity]. apply bytes_eqb_eq in Ez. subst z. cbn in Of. tauto. }
      rewrite Ez. cbn [negb]. destruct T as [->| ->]; cbn [times_eqb orb andb]; [eexists; split; reflexivity|]. destruct om; cbn [negb andb]; [eexists; split; reflexivity|]. exfalso. apply Nu; reflexivity.
  - destruct (star_only_cons y _ Su x u eq_refl) as [-> Su']. apply left_cons in Lf as (En & Lf & _). cbn [leaf_loop]. rewrite En, bytes_eqb_refl. cbn [negb]. rewrite andb_false_r.
    destruct (IH k true (S pos) rest Su' ltac:(discriminate) Lf Of ltac:(lia) true ltac:(auto)) as (s & E & X). replace (pos + S (length u)) with (S pos + length u) by lia.
    destruct T as [->| ->]; cbn [andb]; exists s; auto.
Qed.
Lemma leaf_complete y t last u st pos rest : lang (Leaf y t) u -> left pos (u ++ rest) -> off (grows (Leaf y t)) rest -> length kids < fuel ->
  exists s, leaf_loop kids fuel y t last false st pos = Ok s /\ match s with Next p' _ => p' = pos + length u | Return b p' => b = true /\ p' = pos + length u /\ p' = length kids end.
Proof.
  cbn [lang grows]. intros L Lf Of Fu. pose proof (left_bound _ _ Lf) as B. rewrite app_length in B. assert (M : (t = TMany \/ t = TPlus) \/ t = TOne \/ t = TOpt \/ t = TUnknown) by (destruct t; auto). destruct M as [T|[->|[->| ->]]].
  - apply leaf_rep_complete with (rest := rest); auto.
    + destruct T as [->| ->]; cbn [reps] in L; [exact L|]. destruct L as (a & b & -> & -> & L). constructor; [reflexivity|exact L].
    + intros _ ->. cbn [reps] in L. destruct L as (a & b & -> & -> & L). discriminate.
    + destruct T as [->| ->]; exact Of.
    + lia.
    + discriminate.
  - cbn [reps] in L. subst u. destruct fuel as [|k]; [lia|]. cbn [app length] in *. apply left_cons in Lf as (En & _ & _). cbn [leaf_loop]. rewrite En, bytes_eqb_refl. cbn. eexists. split; [reflexivity|]. cbn beta iota. lia.
  - cbn [reps times_eqb] in *. destruct fuel as [|k]; [lia|]. destruct L as [->| ->]; cbn [app length] in *.
    + destruct rest as [|z rest].
      * apply left_nil in Lf as [En ->]. cbn [leaf_loop]. rewrite En. eexists. split; [reflexivity|]. cbn. auto.
      * apply left_cons in Lf as (En & _ & _). cbn [leaf_loop]. rewrite En. assert (Ez : bytes_eqb z y = false). { destruct (bytes_eqb z y) eqn:Ez; [|reflexivity]. apply bytes_eqb_eq in Ez. subst z. cbn in Of. tauto. }
        rewrite Ez. cbn [negb times_eqb orb andb]. eexists. split; [reflexivity|]. cbn beta iota. lia.
    + apply left_cons in Lf as (En & _ & _). cbn [leaf_loop]. rewrite En, bytes_eqb_refl. cbn [negb times_eqb orb andb]. eexists. split; [reflexivity|]. cbn beta iota. lia.
  - destruct L.
Qed.
Lemma neq_eqb x y : x <> y -> bytes_eqb x y = false.
Proof. intros N. destruct (bytes_eqb x y) eqn:E; [|reflexivity]. apply bytes_eqb_eq in E. contradiction. Qed.
Lemma leaf_off y t last st pos x w : known_times t = true -> left pos (x :: w) -> off [y] (x :: w) -> length kids < fuel ->
  exists st', leaf_loop kids fuel y t last false st pos = Ok (if optional t then Next pos st' else Return false pos).
Proof.
  intros K Lf Of Fu. apply left_cons in Lf as (En & _ & _). destruct fuel as [|k]; [lia|]. cbn [leaf_loop]. rewrite En. rewrite (neq_eqb x y) by (cbn in Of; intros ->; tauto). exists false. destruct t; try discriminate; reflexivity.
Qed.

Variable rec : part -> nat -> res (bool * nat).
(** what is to be shown of lists *)
Definition rec_complete (p : part) : Prop := forall pos u rest, left pos (u ++ rest) -> lang p u -> off (grows p) rest -> rec p pos = Ok (true, pos + length u).
Definition rec_off (p : part) : Prop := forall pos x w, left pos (x :: w) -> off (starts p) (x :: w) -> rec p pos = Ok (skips p, pos).
Definition rec_ok (p : part) : Prop := match p with Group _ _ _ => rec_complete p /\ rec_off p | _ => True end.
Hypothesis Fuel : length kids < fuel.

(** ** sequences *)
Lemma seq_complete ps : (forall q, In q ps -> det q = true) -> (forall q, In q ps -> rec_ok q) -> seq_det ps = true -> forall pos st u rest, left pos (u ++ rest) -> in_order (map lang ps) u -> off (grows_once Sequence ps) rest ->
  exists s, seq_items kids fuel rec ps pos st = Ok s /\ match s with Next p' _ => p' = pos + length u | Return b p' => b = true /\ p' = pos + length u /\ p' = length kids end.
Proof.
  induction ps as [|p ps IH]; intros D R Sd pos st u rest Lf O Of.
  - cbn in O. subst u. cbn. eexists. split; [reflexivity|]. cbn. lia.
  - cbn [map in_order] in O. destruct O as (a & b & -> & Ha & Hb). cbn [seq_det] in Sd. apply andb_true_iff in Sd as [Sd1 Sd2]. unfold grows_once in Of. cbn [is_sequence map seq_grows] in Of. apply off_app in Of as [Of1 Of2].
    rewrite <- app_assoc in Lf. pose proof (left_app _ _ _ Lf) as Lf2. assert (Op : off (grows p) (b ++ rest)).
    { destruct b as [|x b].
      - cbn [app]. assert (N : forallb snd (map (fun q => (grows q, nullable q)) ps) = true). { apply forallb_forall. intros [g n] I. apply in_map_iff in I as (q & E & I). injection E as <- <-. cbn. apply lang_nil, (in_order_nil_all _ Hb), in_map, I. }
        rewrite N in Of1. exact Of1.
      - assert (Hs : on (starts_once Sequence ps) (x :: b)) by (apply seq_on; [exact (fun q J => D q (or_intror J))|intros q J; apply lang_on; exact (D q (or_intror J))|exact Hb]). change ((x :: b) ++ rest) with (x :: (b ++ rest)). cbn [on off] in *. intros J. apply (apart_in _ _ _ Sd1 J Hs). }
    specialize (IH (fun q I => D q (or_intror I)) (fun q I => R q (or_intror I)) Sd2). rewrite app_length.
    assert (X : exists s1, (match p with
           | Leaf y t => leaf_loop kids fuel y t (match ps with [] => true | _ => false end) false st pos
           | Group _ t _ =>
             match nth_error kids pos with
             | None => Ok (exhausted t false st (match ps with [] => true | _ => false end) pos)
             | Some _ => ' (b, pos) <- rec p pos ;; Ok (if b : bool then Next pos st else Return false pos)
             end
           end) = Ok s1 /\ match s1 with Next p' _ => p' = pos + length a | Return b p' => b = true /\ p' = pos + length a /\ p' = length kids end).
    { destruct p as [y t|ty t qs].
      - exact (leaf_complete y t _ a st pos (b ++ rest) Ha Lf Op Fuel).
      - destruct (nth_error kids pos) as [z|] eqn:En.
        + destruct (R _ (or_introl eq_refl)) as [Rc _]. rewrite (Rc pos a (b ++ rest) Lf Ha Op). cbn [bind]. eexists. split; reflexivity.
        + assert (Z : a = [] /\ pos = length kids). { apply nth_error_None in En. pose proof (left_bound _ _ Lf) as B. rewrite app_length in B. destruct a; [|cbn in B; lia]. split; [reflexivity|]. destruct Lf. lia. }
          destruct Z as [-> ->]. pose proof (det_optional _ (D _ (or_introl eq_refl)) (lang_nil _ Ha)) as Oq. cbn [repeat_of] in Oq. eexists. split; [reflexivity|]. unfold exhausted. rewrite andb_false_r. cbn [andb]. destruct t; try discriminate; cbn; auto. }
    destruct X as (s1 & E1 & X). cbn [seq_items]. fold (seq_items kids fuel rec). rewrite E1. cbn [bind]. destruct s1 as [b1 p1|p1 st1].
    + destruct X as (-> & X & X2). eexists. split; [reflexivity|]. cbn beta iota. pose proof (left_bound _ _ Lf2) as B. rewrite app_length in B. split; [reflexivity|]. lia.
    + subst p1. destruct (IH (pos + length a) st1 b rest Lf2 Hb Of2) as (s & E & Y). exists s. split; [exact E|]. rewrite Nat.add_assoc. exact Y.
Qed.
Lemma seq_off ps : (forall q, In q ps -> det q = true) -> (forall q, In q ps -> rec_ok q) -> forall pos st x w, left pos (x :: w) -> off (starts_once Sequence ps) (x :: w) ->
  exists st', seq_items kids fuel rec ps pos st = Ok (if forallb skips ps then Next pos st' else Return false pos).
Proof.
  unfold starts_once. cbn [is_sequence]. induction ps as [|p ps IH]; intros D R pos st x w Lf Of; [exists st; reflexivity|]. cbn [map seq_starts] in Of. apply off_app in Of as [Of1 Of2]. specialize (IH (fun q I => D q (or_intror I)) (fun q I => R q (or_intror I))).
  assert (X : exists st', (match p with
           | Leaf y t => leaf_loop kids fuel y t (match ps with [] => true | _ => false end) false st pos
           | Group _ t _ =>
             match nth_error kids pos with
             | None => Ok (exhausted t false st (match ps with [] => true | _ => false end) pos)
             | Some _ => ' (b, pos) <- rec p pos ;; Ok (if b : bool then Next pos st else Return false pos)
             end
           end) = Ok (if skips p then Next pos st' else Return false pos)).
  { pose proof (D p (or_introl eq_refl)) as Dp. destruct p as [y t|ty t qs].
    - exact (leaf_off y t _ st pos x w Dp Lf Of1 Fuel).
    - destruct (left_cons _ _ _ Lf) as (En & _ & _). rewrite En. destruct (R _ (or_introl eq_refl)) as [_ Ro]. rewrite (Ro pos x w Lf Of1). cbn [bind]. exists st. destruct (skips (Group ty t qs)); reflexivity. }
  destruct X as (st' & X). cbn [seq_items]. fold (seq_items kids fuel rec). rewrite X. cbn [bind forallb]. destruct (skips p); cbn [andb]; [|exists st'; reflexivity]. exact (IH pos st' x w Lf Of2).
Qed.
Lemma seq_end q ps pos st : det q = true -> optional (repeat_of q) = false -> nth_error kids pos = None -> seq_items kids fuel rec (q :: ps) pos st = Ok (Return false pos).
Proof.
  intros D O En. cbn [seq_items]. destruct q as [y t|ty t qs]; cbn [repeat_of] in O.
  - assert (El : leaf_loop kids fuel y t match ps with [] => true | _ => false end false st pos = Ok (exhausted t false st match ps with [] => true | _ => false end pos)) by (destruct fuel; cbn [leaf_loop]; rewrite En; reflexivity).
    rewrite El. cbn [bind]. unfold exhausted. rewrite andb_false_r. cbn [andb]. destruct t; try discriminate; reflexivity.
  - rewrite En. cbn [bind]. unfold exhausted. rewrite andb_false_r. cbn [andb]. destruct t; try discriminate; reflexivity.
Qed.

(** ** choices *)
Lemma choice_rep_complete y t : t = TMany \/ t = TPlus -> forall u k om pos rest node, star (only y) u -> (om = false -> u <> []) -> left pos (u ++ rest) -> nth_error kids pos = Some node -> off [y] rest -> length u < k ->
  choice_leaf kids k y t node om pos = Ok (true, pos + length u).
Proof.
  intros T u. induction u as [|x u IH]; intros k om pos rest node Su Nu Lf En Of Lk; (destruct k as [|k]; [cbn in Lk; lia|]); cbn [app length choice_leaf] in *.
  - destruct rest as [|z rest]; [apply left_nil in Lf as [E _]; congruence|]. apply left_cons in Lf as (E & _ & _). rewrite E in En. injection En as <-. rewrite (neq_eqb z y) by (cbn in Of; intros ->; tauto). rewrite Nat.add_0_r. destruct om; [|exfalso; apply Nu; reflexivity]. destruct T as [->| ->]; reflexivity.
  - destruct (star_only_cons y _ Su x u eq_refl) as [-> Su']. apply left_cons in Lf as (E & Lf & _). rewrite E in En. injection En as <-. rewrite bytes_eqb_refl. replace (pos + S (length u)) with (S pos + length u) by lia.
    assert (Z : match nth_error kids (S pos) with None => Ok (true, S pos) | Some node => choice_leaf kids k y t node true (S pos) end = Ok (true, S pos + length u)).
    { destruct (nth_error kids (S pos)) as [n2|] eqn:E2.
      - apply (IH k true (S pos) rest n2); auto; [discriminate|lia].
      - assert (u = []). { apply nth_error_None in E2. pose proof (left_bound _ _ Lf) as B. rewrite app_length in B. destruct u; [reflexivity|cbn in B; lia]. } subst u. cbn. rewrite Nat.add_0_r. reflexivity. }
    destruct T as [->| ->]; cbn [times_eqb orb]; exact Z.
Qed.
Lemma choice_complete ps : (forall q, In q ps -> det q = true) -> (forall q, In q ps -> rec_ok q) -> choice_det ps = true -> forall pos u rest node, left pos (u ++ rest) -> nth_error kids pos = Some node -> u <> [] -> one_of (map lang ps) u -> off (flat_map grows ps) rest ->
  choice_items kids fuel rec node ps pos = Ok (true, pos + length u).
Proof.
  induction ps as [|p ps IH]; intros D R Cd pos u rest node Lf En Nu O Of; [destruct O as (L & [] & _)|]. cbn [choice_det] in Cd. apply andb_true_iff in Cd as [Cd Cd2]. apply andb_true_iff in Cd as [Sk Cd1]. apply negb_true_iff in Sk. cbn [flat_map] in Of. apply off_app in Of as [Of1 Of2].
  pose proof (D p (or_introl eq_refl)) as Dp. pose proof (R p (or_introl eq_refl)) as Rp. cbn [choice_items]. fold (choice_items kids fuel rec node). destruct O as (L & IL & HL). cbn [map] in IL. destruct IL as [<-|IL].
  - assert (E : match p with Leaf y t => choice_leaf kids fuel y t node false pos | Group _ _ _ => rec p pos end = Ok (true, pos + length u)).
    { destruct p as [y t|ty t qs].
      - cbn [lang] in HL. pose proof (left_bound _ _ Lf) as B. rewrite app_length in B. cbn [det] in Dp. cbn [skips] in Sk. destruct t; try discriminate.
        + cbn [reps] in HL. subst u. destruct (left_cons _ _ _ Lf) as (E & _ & _). rewrite E in En. injection En as <-. destruct fuel as [|k]; [lia|]. cbn [choice_leaf]. rewrite bytes_eqb_refl. cbn. do 2 f_equal. lia.
        + cbn [reps] in HL. destruct HL as (a & b & -> & -> & HL). apply (choice_rep_complete y TPlus (or_intror eq_refl) ([y] ++ b) fuel false pos rest node); auto; [|lia]. apply (star_app (only y) [y] b); [reflexivity|exact HL].
      - destruct Rp as [Rc _]. exact (Rc pos u rest Lf HL Of1). }
    rewrite E. reflexivity.
  - apply in_map_iff in IL as (q & <- & Iq). rewrite forallb_forall in Cd1. specialize (Cd1 q Iq). pose proof (lang_on q (D q (or_intror Iq)) u HL) as Ho.
    destruct u as [|x u]; [contradiction|]. assert (Hf : off (starts p) ((x :: u) ++ rest)) by (exact (apart_in _ _ _ Cd1 Ho)). assert (Ex : node = x) by (destruct (left_cons _ _ _ Lf) as (E & _ & _); congruence). subst node.
    assert (E : match p with Leaf y t => choice_leaf kids fuel y t x false pos | Group _ _ _ => rec p pos end = Ok (false, pos)).
    { destruct p as [y t|ty t qs].
      - destruct fuel as [|k]; [lia|]. cbn [choice_leaf]. rewrite (neq_eqb x y) by (cbn in Hf; intros ->; tauto). rewrite andb_false_r. reflexivity.
      - destruct Rp as [_ Ro]. rewrite (Ro pos x (u ++ rest) Lf Hf), Sk. reflexivity. }
    rewrite E. cbn [bind]. apply (IH (fun r I => D r (or_intror I)) (fun r I => R r (or_intror I)) Cd2 pos (x :: u) rest x); auto. exists (lang q). split; [apply in_map, Iq|exact HL].
Qed.
Lemma choice_off ps : (forall q, In q ps -> rec_ok q) -> choice_det ps = true -> forall pos x w, left pos (x :: w) -> off (flat_map starts ps) (x :: w) -> choice_items kids fuel rec x ps pos = Ok (false, pos).
Proof.
  induction ps as [|p ps IH]; intros R Cd pos x w Lf Of; [reflexivity|]. cbn [choice_det] in Cd. apply andb_true_iff in Cd as [Cd Cd2]. apply andb_true_iff in Cd as [Sk Cd1]. apply negb_true_iff in Sk. cbn [flat_map] in Of. apply off_app in Of as [Of1 Of2]. cbn [choice_items]. fold (choice_items kids fuel rec x).
  assert (E : match p with Leaf y t => choice_leaf kids fuel y t x false pos | Group _ _ _ => rec p pos end = Ok (false, pos)).
  { destruct p as [y t|ty t qs].
    - destruct fuel as [|k]; [lia|]. cbn [choice_leaf]. rewrite (neq_eqb x y) by (cbn in Of1; intros ->; tauto). rewrite andb_false_r. reflexivity.
    - destruct (R _ (or_introl eq_refl)) as [_ Ro]. rewrite (Ro pos x w Lf Of1), Sk. reflexivity. }
  rewrite E. cbn [bind]. apply (IH (fun r I => R r (or_intror I)) Cd2 pos x w Lf Of2).
Qed.

(** ** lists *)
Lemma many_complete strict f (L : words) s g : (forall w, L w -> on s w) -> apart s g = true -> ~ L [] ->
  (forall pos u rest, left pos (u ++ rest) -> u <> [] -> L u -> off g rest -> f pos = Ok (true, pos + length u)) ->
  (forall pos rest, left pos rest -> off s rest -> f pos = Ok (false, pos)) ->
  forall k u pos rest, star L u -> left pos (u ++ rest) -> off g rest -> off s rest -> length u < k -> many_loop k strict f pos = Ok (true, pos + length u).
Proof.
  intros On Ap Nn Fc Fo k. induction k as [|k IH]; intros u pos rest Su Lf Og Os Lk; [lia|]. cbn [many_loop]. destruct u as [|x u].
  - rewrite (Fo pos rest Lf Os). cbn [bind]. rewrite Nat.eqb_refl, andb_false_r. cbn [length]. rewrite Nat.add_0_r. reflexivity.
  - destruct (star_nonempty L _ Su ltac:(discriminate)) as (a & b & E & Na & La & Sb). rewrite E in Lf, Lk |- *. rewrite <- app_assoc in Lf. rewrite app_length in *.
    assert (Og2 : off g (b ++ rest)). { destruct b as [|y b]; [exact Og|]. pose proof (on_star s L _ On Sb) as O2. exact (apart_in _ _ _ Ap O2). }
    rewrite (Fc pos a (b ++ rest) Lf Na La Og2). cbn [bind]. rewrite Nat.add_assoc. apply (IH b (pos + length a) rest); auto; [apply left_app, Lf|]. destruct a; [contradiction|cbn in Lk; lia].
Qed.
Definition base (ty : nested) (t : times) (ps : list part) (top : bool) (pos : nat) := if is_sequence ty then validate_sequence kids fuel rec t ps pos top else validate_choice kids fuel rec ps pos.
Lemma item_list_base ty t ps pos top : item_list_with kids fuel rec ty t ps pos top =
  ' (b, pos) <- match t with
                | TOne => base ty t ps top pos
                | TOpt => ' (b, pos) <- base ty t ps top pos ;; if is_sequence ty then Ok (b, pos) else Ok (true, pos)
                | TMany => many_loop fuel (is_sequence ty) (base ty t ps top) pos
                | TPlus => many_loop fuel (is_sequence ty) (base ty t ps top) pos
                | TUnknown => Ok (false, pos)
                end ;;
  if negb b then Ok (false, pos)
  else if top && is_choice ty && (pos + 1 <? length kids) then Ok (false, pos) else Ok (true, pos).
Proof. reflexivity. Qed.
Lemma once_complete ty t ps top : det (Group ty t ps) = true -> (forall q, In q ps -> rec_ok q) -> forall pos u rest, left pos (u ++ rest) -> once ty ps u -> off (grows_once ty ps) rest -> top = false \/ t = TMany \/ rest = [] -> base ty t ps top pos = Ok (true, pos + length u).
Proof.
  intros Dg R pos u rest Lf O Of Tp. destruct (det_group _ _ _ Dg) as (D & Nn & Dd & _). unfold base. destruct (is_sequence ty) eqn:Es.
  - destruct ty; try discriminate. cbn [once] in O. destruct (seq_complete ps D R Dd pos false u rest Lf O Of) as (s & E & X). unfold validate_sequence. rewrite E. cbn [bind]. destruct s as [b p'|p' st].
    + destruct X as (-> & -> & _). reflexivity.
    + subst p'. assert (Z : (times_eqb t TPlus || times_eqb t TOne) && top && (pos + length u <? length kids) = false).
      { destruct Tp as [->|[->| ->]]; [rewrite andb_false_r; reflexivity|reflexivity|]. pose proof (left_bound _ _ Lf) as B. rewrite app_nil_r in B. rewrite B, Nat.ltb_irrefl. apply andb_false_r. }
      rewrite Z. reflexivity.
  - unfold grows_once in Of. rewrite Es in Of. assert (O' : one_of (map lang ps) u) by (destruct ty; [exact O|exact O|discriminate]). assert (Nu : u <> []) by (intros ->; apply once_nil_inv in O; congruence).
    destruct u as [|x u]; [contradiction|]. destruct (left_cons _ _ _ Lf) as (En & _ & _). unfold validate_choice. rewrite En. apply (choice_complete ps D R Dd pos (x :: u) rest x); auto.
Qed.
Lemma once_off ty t ps top : det (Group ty t ps) = true -> (forall q, In q ps -> rec_ok q) -> top = false \/ t = TMany -> forall pos x w, left pos (x :: w) -> off (starts_once ty ps) (x :: w) -> base ty t ps top pos = Ok (skips_once ty ps, pos).
Proof.
  intros Dg R Tp pos x w Lf Of. destruct (det_group _ _ _ Dg) as (D & Nn & Dd & _). unfold base, skips_once. destruct (is_sequence ty) eqn:Es.
  - destruct ty; try discriminate. destruct (seq_off ps D R pos false x w Lf Of) as (st & E). unfold validate_sequence. rewrite E. cbn [bind andb]. destruct (forallb skips ps); [|reflexivity].
    destruct Tp as [->| ->]; [rewrite andb_false_r|]; reflexivity.
  - unfold starts_once in Of. rewrite Es in Of. unfold validate_choice. destruct (left_cons _ _ _ Lf) as (En & _ & _). rewrite En. cbn [andb]. apply (choice_off ps R Dd pos x w Lf Of).
Qed.
Lemma list_complete ty t ps top : det (Group ty t ps) = true -> (forall q, In q ps -> rec_ok q) -> top && is_sequence ty && times_eqb t TPlus = false -> forall pos u rest, left pos (u ++ rest) -> lang (Group ty t ps) u -> off (grows (Group ty t ps)) rest -> top = false \/ rest = [] ->
  item_list_with kids fuel rec ty t ps pos top = Ok (true, pos + length u).
Proof.
  intros Dg R Np pos u rest Lf L Of Tp. rewrite lang_group in L. cbn [grows] in Of. apply off_app in Of as [Og Os]. change (off (grows_once ty ps) rest) in Og. rewrite item_list_base. pose proof (left_bound _ _ Lf) as B. rewrite app_length in B.
  assert (M : match t with
                | TOne => base ty t ps top pos
                | TOpt => ' (b, pos) <- base ty t ps top pos ;; if is_sequence ty then Ok (b, pos) else Ok (true, pos)
                | TMany => many_loop fuel (is_sequence ty) (base ty t ps top) pos
                | TPlus => many_loop fuel (is_sequence ty) (base ty t ps top) pos
                | TUnknown => Ok (false, pos)
                end = Ok (true, pos + length u)).
  { assert (Many : t = TMany \/ t = TPlus -> many_loop fuel (is_sequence ty) (base ty t ps top) pos = Ok (true, pos + length u)).
    { intros T. assert (Tp2 : top = false \/ t = TMany \/ is_sequence ty = false) by (destruct T as [->| ->]; [auto|]; destruct top; [|auto]; destruct (is_sequence ty); [discriminate|auto]).
      assert (Os' : off (starts_once ty ps) rest) by (destruct T as [->| ->]; exact Os). destruct (det_group _ _ _ Dg) as (D & Nn & _ & _).
      assert (Dx : apart (starts_once ty ps) (grows_once ty ps) = true /\ skips_once ty ps = false /\ (if is_sequence ty then match ps with [] => false | q :: _ => negb (optional (repeat_of q)) end else true) = true).
      { cbn [det] in Dg. apply andb_true_iff in Dg as [_ Dg]. destruct T as [->| ->]; apply andb_true_iff in Dg as [Dg D3]; apply andb_true_iff in Dg as [D1 D2]; apply negb_true_iff in D2; auto. }
      destruct Dx as (Ap & Sk & Hd). eapply (many_complete (is_sequence ty) (base ty t ps top) (once ty ps) (starts_once ty ps) (grows_once ty ps)) with (rest := rest); auto.
      - apply once_on; [exact D|]. intros q I. apply lang_on; auto.
      - intros X. apply once_nil_inv in X. congruence.
      - intros q v r Lv Nv Lq Og'. destruct Tp2 as [T2|[T2|T2]]; [apply once_complete with (rest := r); auto|apply once_complete with (rest := r); auto|].
        assert (X : base ty t ps top q = base ty t ps false q) by (unfold base; rewrite T2; reflexivity). rewrite X. apply once_complete with (rest := r); auto.
      - intros q r Lr Or. assert (X : base ty t ps top q = base ty t ps top q /\ (top = false \/ t = TMany) \/ is_sequence ty = false) by tauto. destruct r as [|x r].
        + apply left_nil in Lr as [En ->]. unfold base. destruct (is_sequence ty) eqn:Es; [|unfold validate_choice; rewrite En; reflexivity]. destruct ps as [|p ps]; [discriminate|]. apply negb_true_iff in Hd. unfold validate_sequence. rewrite (seq_end p ps _ false (D p (or_introl eq_refl)) Hd En). reflexivity.
        + destruct X as [[_ X]|X].
          * rewrite (once_off ty t ps top Dg R X q x r Lr Or), Sk. reflexivity.
          * assert (Y : base ty t ps top q = base ty t ps false q) by (unfold base; rewrite X; reflexivity). rewrite Y, (once_off ty t ps false Dg R (or_introl eq_refl) q x r Lr Or), Sk. reflexivity.
      - destruct T as [->| ->]; cbn [reps] in L; [exact L|]. destruct L as (a & b & -> & La & Lb). constructor; assumption.
      - lia. }
    destruct t.
    - destruct L.
    - cbn [reps] in L. apply once_complete with (rest := rest); auto. tauto.
    - destruct (is_sequence ty) eqn:Es; [cbn [det] in Dg; rewrite Es in Dg; cbn [negb] in Dg; rewrite andb_false_r in Dg; discriminate|]. destruct L as [->|L].
      + cbn [app length] in *. rewrite Nat.add_0_r. cbn [times_eqb] in Os. destruct rest as [|x rest].
        * apply left_nil in Lf as [En ->]. unfold base. rewrite Es. unfold validate_choice. rewrite En. reflexivity.
        * assert (Y : base ty TOpt ps top pos = base ty TOpt ps false pos) by (unfold base; rewrite Es; reflexivity). rewrite Y, (once_off ty TOpt ps false Dg R (or_introl eq_refl) pos x rest Lf Os). reflexivity.
      + rewrite (once_complete ty TOpt ps top Dg R pos u rest Lf L Og) by tauto. reflexivity.
    - apply Many. auto.
    - apply Many. auto. }
  rewrite M. cbn [bind negb]. destruct Tp as [->| ->]; [reflexivity|]. cbn [length] in B. assert (Z : (pos + length u + 1 <? length kids) = false) by (apply Nat.ltb_ge; lia). rewrite Z, andb_false_r. reflexivity.
Qed.
Lemma list_off ty t ps : det (Group ty t ps) = true -> (forall q, In q ps -> rec_ok q) -> forall pos x w, left pos (x :: w) -> off (starts (Group ty t ps)) (x :: w) -> item_list_with kids fuel rec ty t ps pos false = Ok (skips (Group ty t ps), pos).
Proof.
  intros Dg R pos x w Lf Of. change (off (starts_once ty ps) (x :: w)) in Of. pose proof (once_off ty t ps false Dg R (or_introl eq_refl) pos x w Lf Of) as E. rewrite item_list_base.
  assert (Many : t = TMany \/ t = TPlus -> many_loop fuel (is_sequence ty) (base ty t ps false) pos = Ok (true, pos)).
  { intros T. assert (Sk : skips_once ty ps = false) by (cbn [det] in Dg; apply andb_true_iff in Dg as [_ Dg]; destruct T as [->| ->]; apply andb_true_iff in Dg as [Dg _]; apply andb_true_iff in Dg as [_ D2]; apply negb_true_iff in D2; exact D2).
    destruct fuel as [|k] eqn:Ef; [lia|]. cbn [many_loop]. rewrite E, Sk. cbn [bind]. rewrite Nat.eqb_refl, andb_false_r. reflexivity. }
  cbn [skips]. destruct t; cbn [andb].
  - destruct (det_group _ _ _ Dg) as (_ & _ & _ & N). contradiction.
  - rewrite E. cbn [bind]. unfold skips_once. destruct (is_sequence ty && forallb skips ps); reflexivity.
  - rewrite E. cbn [bind]. unfold skips_once. destruct (is_sequence ty) eqn:Es; [cbn [det] in Dg; rewrite Es in Dg; cbn [negb] in Dg; rewrite andb_false_r in Dg; discriminate|]. reflexivity.
  - rewrite Many by auto. reflexivity.
  - rewrite Many by auto. reflexivity.
Qed.
End Complete.

Lemma item_list_ok kids fuel : length kids < fuel -> forall p, det p = true -> rec_ok kids (item_list kids fuel) p.
Proof.
  intros Fu p. induction p as [x t|ty t ps IH] using part_ind2; intros D; [exact I|]. destruct (det_group _ _ _ D) as (D1 & _). assert (R : forall q, In q ps -> rec_ok kids (item_list kids fuel) q) by auto. split.
  - intros pos u rest Lf L Of. cbn [item_list]. apply list_complete with (rest := rest); auto.
  - intros pos x w Lf Of. cbn [item_list]. apply list_off with (x := x) (w := w); auto.
Qed.
Lemma compulsory_seq ps : forall c w, in_order (map lang ps) w -> compulsory_items Sequence c ps <= c + length w.
Proof.
  induction ps as [|p ps IH]; intros c w O; cbn [map in_order] in O; [subst w; cbn; lia|]. destruct O as (u & v & -> & Hu & Hv). rewrite app_length. destruct p as [x t|ty t qs]; cbn [compulsory_items is_choice].
  - destruct (times_eqb t TPlus || times_eqb t TOne) eqn:E; [|specialize (IH c v Hv); lia]. assert (1 <= length u). { cbn [lang] in Hu. destruct t; try discriminate; cbn [reps] in Hu; [subst u; cbn; lia|]. destruct Hu as (a & b & -> & -> & _). cbn. lia. } specialize (IH (S c) v Hv). lia.
  - specialize (IH c v Hv). lia.
Qed.
(** a list whose items are alternatives counts one compulsory item, or, when it has only one
    item and no separator, that item *)
Lemma compulsory_choice ps : compulsory_items Choice 0 ps <= 1.
Proof. induction ps as [|[x t|ty t qs] ps IH]; cbn [compulsory_items is_choice]; [lia| |exact IH]. destruct (times_eqb t TPlus || times_eqb t TOne); [lia|exact IH]. Qed.
Theorem children_complete kids fuel p top : det_top p top = true -> (match p with Group Undef _ (_ :: _ :: _) => false | _ => true end = true) -> length kids < fuel -> lang p kids -> validate_children kids fuel p (compulsory_num p) top = Ok true.
Proof.
  destruct p as [x t|ty t ps]; [discriminate|]. cbn [det_top]. intros D Un Fu L. apply andb_true_iff in D as [D Np]. apply negb_true_iff in Np. destruct (det_group _ _ _ D) as (D1 & Nn & _ & _).
  unfold validate_children. assert (Z : (length kids <? compulsory_num (Group ty t ps)) = false).
  { apply Nat.ltb_ge. cbn [compulsory_num]. destruct (times_eqb t TOne || times_eqb t TPlus) eqn:Et; [|lia]. rewrite lang_group in L. assert (X : exists u v, kids = u ++ v /\ once ty ps u). { destruct t; try discriminate; cbn [reps] in L; [exists kids, []; rewrite app_nil_r; auto|]. destruct L as (u & v & E & Lu & _). eauto. }
    destruct X as (u & v & -> & Lu). rewrite app_length. assert (1 <= length u) by (destruct u; [apply once_nil_inv in Lu; congruence|cbn; lia]). destruct ty.
    - destruct ps as [|q [|r ps]]; [cbn; lia| |discriminate]. destruct q as [x tq|]; cbn [compulsory_items is_choice]; [|lia]. destruct (times_eqb tq TPlus || times_eqb tq TOne); lia.
    - pose proof (compulsory_choice ps). lia.
    - cbn [once] in Lu. pose proof (compulsory_seq ps 0 u Lu). lia. }
  rewrite Z. cbn [item_list_top].
  assert (Lf : left kids 0 (kids ++ [])) by (split; [rewrite app_nil_r; reflexivity|lia]).
  rewrite (list_complete kids fuel (item_list kids fuel) Fu ty t ps top D (fun q I => item_list_ok kids fuel Fu q (D1 q I)) Np 0 kids [] Lf L I (or_intror eq_refl)). cbn [bind]. cbn [Nat.add]. rewrite Nat.ltb_irrefl. reflexivity.
Qed.
