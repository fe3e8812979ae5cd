(** Soundness of the validation of content specifications. *)
From Verif Require Import Prelude DtdModel DtdSpec.
Open Scope nat_scope.
Open Scope list_scope.

Lemma part_ind2 (P : part -> Prop) : (forall x t, P (Leaf x t)) -> (forall ty t ps, (forall p, In p ps -> P p) -> P (Group ty t ps)) -> forall p, P p.
Proof.
  intros HL HG. fix IH 1. intros [x t|ty t ps]; [apply HL|]. apply HG. induction ps as [|q ps IHps]; intros p I; [destruct I|]. destruct I as [<-|I]; [apply IH|exact (IHps p I)].
Qed.
Lemma star_plus (L : words) w : star L w -> w = [] \/ exists u v, w = u ++ v /\ L u /\ star L v.
Proof. intros []; [left; reflexivity|right; eauto]. Qed.
Lemma star_one (L : words) w : L w -> star L w.
Proof. intros H. rewrite <- (app_nil_r w). constructor; [exact H|constructor]. Qed.
Lemma optional_reps t (L : words) : optional t = true -> reps t L [].
Proof. destruct t; cbn; try discriminate; intros _; [left; reflexivity|constructor]. Qed.
Lemma in_order_nil (Ls : list words) : (forall L, In L Ls -> L []) -> in_order Ls [].
Proof. induction Ls as [|L Ls IH]; intros H; [reflexivity|]. exists [], []. split; [reflexivity|]. split; [apply H; left; reflexivity|apply IH; intros M I; apply H; right; exact I]. Qed.
Lemma reps_nil t (L : words) : t <> TUnknown -> L [] -> reps t L [].
Proof. destruct t; cbn; intros N H; [contradiction|exact H|left; reflexivity|constructor|]. exists [], []. split; [reflexivity|]. split; [exact H|constructor]. Qed.
Lemma lang_group ty t ps : lang (Group ty t ps) = reps t (once ty ps).
Proof. destruct ty; reflexivity. Qed.
Lemma times_eqb_eq a b : times_eqb a b = true <-> a = b.
Proof. destruct a, b; cbn; split; congruence. Qed.
Lemma known_times_ok t : known_times t = true -> t <> TUnknown.
Proof. destruct t; cbn; congruence. Qed.
Lemma once_nil ty ps : (forall p, In p ps -> nullable p = true -> lang p []) -> null_once ty ps = true -> once ty ps [].
Proof.
  unfold null_once. intros H. destruct ty; cbn [is_sequence once]; intros N.
  1,2: apply existsb_exists in N as (p & I & N); exists (lang p); split; [apply in_map, I|apply H; assumption].
  apply in_order_nil. intros L I. apply in_map_iff in I as (p & <- & I). apply H; [exact I|]. rewrite forallb_forall in N. exact (N p I).
Qed.
Lemma nullable_ok p : nullable p = true -> lang p [].
Proof.
  induction p as [x t|ty t ps IH] using part_ind2; cbn [nullable].
  - intros O. cbn [lang]. apply optional_reps, O.
  - rewrite lang_group. intros N. apply orb_true_iff in N as [O|N]; [apply optional_reps, O|]. apply andb_true_iff in N as [Kt N]. apply reps_nil; [exact (known_times_ok t Kt)|]. apply once_nil; [exact IH|exact N].
Qed.

Section Sound.
Variable kids : list bytes.
Variable fuel : nat.
Definition slice (i j : nat) : word := firstn (j - i) (skipn i kids).
Lemma slice_nil i : slice i i = [].
Proof. unfold slice. rewrite Nat.sub_diag. reflexivity. Qed.
Lemma skipn_plus {A} i j (l : list A) : skipn j (skipn i l) = skipn (i + j) l.
Proof. revert l. induction i as [|i IH]; intros [|x l]; cbn; rewrite ?skipn_nil; auto. Qed.
Lemma slice_app i j k : i <= j -> j <= k -> slice i k = slice i j ++ slice j k.
Proof.
  intros H1 H2. unfold slice. replace (k - i) with ((j - i) + (k - j)) by lia. assert (E : skipn j kids = skipn (j - i) (skipn i kids)) by (rewrite skipn_plus; f_equal; lia). rewrite E.
  generalize (skipn i kids) as l. generalize (j - i) as a, (k - j) as b. clear. induction a as [|a IH]; intros b l; [reflexivity|]. destruct l as [|x l]; cbn; [rewrite firstn_nil; reflexivity|]. f_equal. apply IH.
Qed.
Lemma slice_one i x : nth_error kids i = Some x -> slice i (S i) = [x].
Proof. unfold slice. replace (S i - i) with 1 by lia. generalize kids. induction i as [|i IH]; intros [|y l] E; cbn in *; try discriminate; [congruence|apply IH, E]. Qed.
Lemma slice_cons i j x : nth_error kids i = Some x -> S i <= j -> slice i j = [x] ++ slice (S i) j.
Proof. intros E L. rewrite (slice_app i (S i) j) by lia. rewrite (slice_one i x E). reflexivity. Qed.
Lemma slice_all j : length kids <= j -> slice 0 j = kids.
Proof. intros L. unfold slice. cbn. apply firstn_all2. lia. Qed.

(** ** a name *)
Definition only (y : bytes) : words := fun w => w = [y].
Lemma leaf_sound y t last : t <> TUnknown -> forall k om st pos s, leaf_loop kids k y t last om st pos = Ok s -> (om = true -> st = true /\ (t = TPlus \/ t = TMany)) ->
  match s with
  | Next p' _ => pos <= p' /\ (if om then star (only y) else reps t (only y)) (slice pos p')
  | Return true p' => pos <= p' /\ (if om then star (only y) else reps t (only y)) (slice pos p') /\ (optional t = true \/ last = true)
  | Return false p' => om = false /\ p' = pos /\ optional t = false
  end.
Proof.
  intros Nt k. induction k as [|k IH]; intros om st pos s E H; cbn [leaf_loop] in E.
  - destruct (nth_error kids pos) as [x|] eqn:Ex; [discriminate|]. injection E as <-. unfold exhausted. destruct om.
    + destruct (H eq_refl) as [-> [->| ->]]; cbn [times_eqb andb orb]; [destruct last|]; rewrite slice_nil; repeat split; auto; constructor.
    + rewrite andb_false_r. cbn [andb]. destruct t; cbn [times_eqb orb optional]; try contradiction; rewrite ?slice_nil; repeat split; auto; try constructor; reflexivity.
  - destruct (nth_error kids pos) as [x|] eqn:Ex.
    2:{ injection E as <-. unfold exhausted. destruct om.
        + destruct (H eq_refl) as [-> [->| ->]]; cbn [times_eqb andb orb]; [destruct last|]; rewrite slice_nil; repeat split; auto; constructor.
        + rewrite andb_false_r. cbn [andb]. destruct t; cbn [times_eqb orb optional]; try contradiction; rewrite ?slice_nil; repeat split; auto; try constructor; reflexivity. }
    destruct (bytes_eqb x y) eqn:Exy; cbn [negb] in E.
    + apply bytes_eqb_eq in Exy. subst x. rewrite !andb_false_r in E. cbn [andb] in E.
      assert (Step : forall s, (match s with
          | Next p' _ => S pos <= p' /\ star (only y) (slice (S pos) p')
          | Return true p' => S pos <= p' /\ star (only y) (slice (S pos) p') /\ (optional t = true \/ last = true)
          | Return false p' => true = false /\ p' = S pos /\ optional t = false
          end) -> (t = TPlus \/ t = TMany) ->
          match s with
          | Next p' _ => pos <= p' /\ (if om then star (only y) else reps t (only y)) (slice pos p')
          | Return true p' => pos <= p' /\ (if om then star (only y) else reps t (only y)) (slice pos p') /\ (optional t = true \/ last = true)
          | Return false p' => om = false /\ p' = pos /\ optional t = false
          end).
      { clear -Ex. intros s X T.
        assert (Y : forall p', S pos <= p' -> star (only y) (slice (S pos) p') -> pos <= p' /\ (if om then star (only y) else reps t (only y)) (slice pos p')).
        { intros p' L St. split; [lia|]. rewrite (slice_cons pos p' y Ex L). destruct om; [constructor; [reflexivity|exact St]|]. destruct T as [->| ->]; cbn [reps]; [exists [y], (slice (S pos) p'); repeat split; auto|constructor; [reflexivity|exact St]]. }
        destruct s as [[]|]; [|destruct X; discriminate|]; [destruct X as (X1 & X2 & X3)|destruct X as (X1 & X2)]; destruct (Y _ X1 X2); auto. }
      destruct t; try contradiction.
      * injection E as <-. destruct om; [destruct (H eq_refl) as [_ [T|T]]; discriminate T|]. cbn [reps]. split; [lia|]. apply slice_one, Ex.
      * injection E as <-. destruct om; [destruct (H eq_refl) as [_ [T|T]]; discriminate T|]. cbn [reps]. split; [lia|]. right. apply slice_one, Ex.
      * apply Step; [|auto]. exact (IH true true (S pos) s E (fun _ => conj eq_refl (or_intror eq_refl))).
      * apply Step; [|auto]. exact (IH true true (S pos) s E (fun _ => conj eq_refl (or_introl eq_refl))).
    + rewrite !andb_true_r in E. destruct t; cbn [times_eqb orb andb] in E; try contradiction.
      * injection E as <-. destruct om; [destruct (H eq_refl) as [_ [T|T]]; discriminate T|]. auto.
      * injection E as <-. rewrite slice_nil. split; [lia|]. destruct om; [constructor|left; reflexivity].
      * injection E as <-. rewrite slice_nil. split; [lia|]. destruct om; constructor.
      * destruct om; cbn [negb] in E; injection E as <-; [rewrite slice_nil; split; [lia|constructor]|auto].
Qed.

(** ** sequences *)
Variable rec : part -> nat -> res (bool * nat).
Definition rec_sound (p : part) : Prop := forall pos b pos', rec p pos = Ok (b, pos') ->
  pos <= pos' /\ (b = true -> lang p (slice pos pos')) /\ (b = false -> stays p = true -> pos' = pos).
Lemma repeat_exhausted p st last pos : (forall x, p <> Leaf x TUnknown) -> exhausted (repeat_of p) false st last pos = Return (optional (repeat_of p)) pos.
Proof. intros N. unfold exhausted. rewrite andb_false_r. cbn [andb]. destruct (repeat_of p); reflexivity. Qed.
Lemma seq_sound ps : (forall p, In p ps -> safe p = true) -> (forall p, In p ps -> match p with Group _ _ _ => rec_sound p | _ => True end) -> optional_last ps = true ->
  forall pos st s, seq_items kids fuel rec ps pos st = Ok s ->
  match s with
  | Next p' _ | Return true p' => pos <= p' /\ in_order (map lang ps) (slice pos p')
  | Return false p' => pos <= p' /\ (match ps with [] => true | q :: qs => stays q && forallb leaf_optional qs end = true -> p' = pos)
  end.
Proof.
  induction ps as [|p ps IH]; intros Sf Rs Ol pos st s E.
  - injection E as <-. rewrite slice_nil. cbn. auto.
  - cbn [seq_items] in E. cbn [optional_last] in Ol. apply andb_true_iff in Ol as [O1 O2]. fold (seq_items kids fuel rec) in E.
    specialize (IH (fun q I => Sf q (or_intror I)) (fun q I => Rs q (or_intror I)) O2).
    assert (X : exists s1, (match p with
           | Leaf y t => leaf_loop kids fuel y t (match ps with [] => true | _ => false end) false st pos
           | Group _ t _ =>
             match nth_error kids pos with
             | None => Ok (exhausted t false st (match ps with [] => true | _ => false end) pos)
             | Some _ => ' (b, pos) <- rec p pos ;; Ok (if b : bool then Next pos st else Return false pos)
             end
           end) = Ok s1 /\ match s1 with Return b pos => Ok (Return b pos) | Next pos status => seq_items kids fuel rec ps pos status end = Ok s).
    { destruct (match p with Leaf y t => _ | Group _ t _ => _ end) as [s1| |]; try discriminate. eauto. }
    clear E. destruct X as (s1 & E1 & E2).
    assert (Y : match s1 with
      | Next p' _ => pos <= p' /\ lang p (slice pos p')
      | Return true p' => pos <= p' /\ in_order (map lang (p :: ps)) (slice pos p')
      | Return false p' => pos <= p' /\ (stays p = true -> p' = pos) /\ leaf_optional p = false
      end).
    { pose proof (Sf p (or_introl eq_refl)) as Sp. pose proof (Rs p (or_introl eq_refl)) as Rp. destruct p as [y t|ty t qs].
      - cbn [safe] in Sp. apply known_times_ok in Sp. pose proof (leaf_sound y t _ Sp fuel false st pos s1 E1 ltac:(discriminate)) as L. destruct s1 as [[]|]; cbn [lang map].
        + destruct L as (L1 & L2 & L3). split; [exact L1|]. exists (slice pos pos0), []. rewrite app_nil_r. split; [reflexivity|]. split; [exact L2|]. destruct L3 as [L3|L3].
          * cbn [repeat_of] in O1. rewrite L3 in O1. apply in_order_nil. intros M I. apply in_map_iff in I as (q & <- & I). apply nullable_ok. rewrite forallb_forall in O1. exact (O1 q I).
          * destruct ps; [reflexivity|discriminate].
        + destruct L as (_ & -> & L). cbn [leaf_optional]. auto.
        + exact L.
      - destruct (nth_error kids pos) as [x|].
        + destruct (rec (Group ty t qs) pos) as [[b p']| |] eqn:Er; cbn [bind] in E1; try discriminate. injection E1 as <-. destruct (Rp pos b p' Er) as (R1 & R2 & R3). destruct b; auto.
        + injection E1 as <-. rewrite (repeat_exhausted (Group ty t qs) st _ pos ltac:(discriminate)). destruct (optional (repeat_of (Group ty t qs))) eqn:Op.
          * split; [lia|]. rewrite slice_nil. apply in_order_nil. intros M I. cbn [map] in I. destruct I as [<-|I].
            -- rewrite lang_group. apply optional_reps. exact Op.
            -- apply in_map_iff in I as (q & <- & I). apply nullable_ok. rewrite forallb_forall in O1. exact (O1 q I).
          * auto. }
    clear E1. destruct s1 as [b p'|p' st'].
    + injection E2 as <-. destruct b; [exact Y|]. destruct Y as (Y1 & Y2 & _). split; [exact Y1|]. intros H. apply andb_true_iff in H as [H _]. auto.
    + destruct Y as [Y1 Y2]. specialize (IH p' st' s E2).
      assert (Z : forall q, p' <= q -> in_order (map lang ps) (slice p' q) -> pos <= q /\ in_order (map lang (p :: ps)) (slice pos q)).
      { intros q L I. split; [lia|]. cbn [map in_order]. exists (slice pos p'), (slice p' q). rewrite <- slice_app by lia. auto. }
      destruct s as [[]|]; [destruct IH; apply Z; auto| |destruct IH; apply Z; auto].
      destruct IH as [I1 I2]. split; [lia|]. intros H. exfalso. apply andb_true_iff in H as [_ H]. clear -E2 H.
      revert p' st' E2. induction ps as [|q ps IHp]; intros p' st' E2; [discriminate|]. cbn [forallb] in H. apply andb_true_iff in H as [Hq H]. destruct q as [y t|]; [|discriminate]. cbn [leaf_optional] in Hq. cbn [seq_items] in E2. fold (seq_items kids fuel rec) in E2.
      destruct (leaf_loop kids fuel y t match ps with [] => true | _ => false end false st' p') as [s1| |] eqn:El; cbn [bind] in E2; try discriminate.
      assert (Nt : t <> TUnknown) by (destruct t; discriminate). pose proof (leaf_sound y t _ Nt fuel false st' p' s1 El ltac:(discriminate)) as L. destruct s1 as [b p1|p1 st1]; [|exact (IHp H p1 st1 E2)].
      injection E2 as E3 E4. subst b. destruct L as (_ & _ & L). congruence.
Qed.

(** ** choices *)
Lemma choice_leaf_sound y t : t <> TUnknown -> forall k node om pos b p', nth_error kids pos = Some node -> (om = true -> t = TPlus \/ t = TMany) -> choice_leaf kids k y t node om pos = Ok (b, p') ->
  pos <= p' /\ (b = true -> (if om then star (only y) else reps t (only y)) (slice pos p') /\ (om = false -> pos < p')) /\ (b = false -> om = false /\ p' = pos).
Proof.
  intros Nt k. induction k as [|k IH]; intros node om pos b p' En T E; cbn [choice_leaf] in E; [discriminate|]. destruct (bytes_eqb node y) eqn:Ey.
  - apply bytes_eqb_eq in Ey. subst node. pose proof (slice_one pos y En) as S1.
    assert (Base : forall q, S pos <= q -> star (only y) (slice (S pos) q) -> t = TPlus \/ t = TMany -> (if om then star (only y) else reps t (only y)) (slice pos q)).
    { intros q L St [->| ->]; rewrite (slice_cons pos q y En L); destruct om; cbn [reps]; try (constructor; [reflexivity|exact St]). exists [y], (slice (S pos) q). repeat split; auto. }
    destruct t; cbn [times_eqb orb] in E; try contradiction.
    + injection E as <- <-. split; [lia|]. split; [|discriminate]. intros _. destruct om; [destruct (T eq_refl) as [X|X]; discriminate X|]. cbn [reps]. split; [exact S1|lia].
    + injection E as <- <-. split; [lia|]. split; [|discriminate]. intros _. destruct om; [destruct (T eq_refl) as [X|X]; discriminate X|]. cbn [reps]. split; [right; exact S1|lia].
    + destruct (nth_error kids (S pos)) as [n2|] eqn:E2.
      * destruct (IH n2 true (S pos) b p' E2 (fun _ => or_intror eq_refl) E) as (I1 & I2 & I3). split; [lia|]. split; [|intros Hb; destruct (I3 Hb); discriminate]. intros Hb. split; [|lia]. apply Base; [lia|exact (proj1 (I2 Hb))|auto].
      * injection E as <- <-. split; [lia|]. split; [|discriminate]. intros _. split; [|lia]. apply Base; [lia|rewrite slice_nil; constructor|auto].
    + destruct (nth_error kids (S pos)) as [n2|] eqn:E2.
      * destruct (IH n2 true (S pos) b p' E2 (fun _ => or_introl eq_refl) E) as (I1 & I2 & I3). split; [lia|]. split; [|intros Hb; destruct (I3 Hb); discriminate]. intros Hb. split; [|lia]. apply Base; [lia|exact (proj1 (I2 Hb))|auto].
      * injection E as <- <-. split; [lia|]. split; [|discriminate]. intros _. split; [|lia]. apply Base; [lia|rewrite slice_nil; constructor|auto].
  - destruct om.
    + destruct (T eq_refl) as [->| ->]; cbn in E; injection E as <- <-; (split; [lia|]); split; intros Hb; try discriminate; rewrite slice_nil; (split; [constructor|discriminate]).
    + rewrite andb_false_r in E. injection E as <- <-. split; [lia|]. split; [discriminate|auto].
Qed.
Lemma choice_sound ps node : forall pos b p', (forall p, In p ps -> safe p = true /\ stays p = true) -> (forall p, In p ps -> match p with Group _ _ _ => rec_sound p | _ => True end) ->
  nth_error kids pos = Some node -> choice_items kids fuel rec node ps pos = Ok (b, p') ->
  pos <= p' /\ (b = true -> one_of (map lang ps) (slice pos p')) /\ (b = false -> p' = pos).
Proof.
  induction ps as [|p ps IH]; intros pos b p' Sf Rs En E; [injection E as <- <-; split; [lia|]; split; [discriminate|reflexivity]|].
  cbn [choice_items] in E. fold (choice_items kids fuel rec node) in E. destruct (Sf p (or_introl eq_refl)) as [Sp St].
  destruct (match p with Leaf y t => choice_leaf kids fuel y t node false pos | Group _ _ _ => rec p pos end) as [[b1 p1]| |] eqn:E1; cbn [bind] in E; try discriminate.
  assert (X : pos <= p1 /\ (b1 = true -> lang p (slice pos p1)) /\ (b1 = false -> p1 = pos)).
  { destruct p as [y t|ty t qs].
    - cbn [safe] in Sp. apply known_times_ok in Sp. destruct (choice_leaf_sound y t Sp fuel node false pos b1 p1 En ltac:(discriminate) E1) as (L1 & L2 & L3). split; [exact L1|]. split; [intros Hb; exact (proj1 (L2 Hb))|intros Hb; exact (proj2 (L3 Hb))].
    - destruct (Rs _ (or_introl eq_refl) pos b1 p1 E1) as (R1 & R2 & R3). auto. }
  destruct X as (X1 & X2 & X3). destruct b1.
  - injection E as <- <-. split; [exact X1|]. split; [|discriminate]. intros _. exists (lang p). split; [left; reflexivity|auto].
  - rewrite (X3 eq_refl) in E. destruct (IH pos b p' (fun q I => Sf q (or_intror I)) (fun q I => Rs q (or_intror I)) En E) as (I1 & I2 & I3). split; [exact I1|]. split; [|exact I3].
    intros Hb. destruct (I2 Hb) as (L & IL & HL). exists L. split; [right; exact IL|exact HL].
Qed.

(** ** repetitions *)
Lemma many_sound strict (f : nat -> res (bool * nat)) (L : words) (always : bool) : (forall pos b p', f pos = Ok (b, p') -> pos <= p' /\ (b = true -> L (slice pos p')) /\ (b = false -> strict = false \/ always = true -> p' = pos)) ->
  forall k pos b p', many_loop k strict f pos = Ok (b, p') -> pos <= p' /\ (b = true -> star L (slice pos p')) /\ (b = false -> always = false).
Proof.
  intros F k. induction k as [|k IH]; intros pos b p' E; cbn [many_loop] in E; [discriminate|]. destruct (f pos) as [[b1 p1]| |] eqn:E1; cbn [bind] in E; try discriminate. destruct (F pos b1 p1 E1) as (F1 & F2 & F3). destruct b1.
  - destruct (IH p1 b p' E) as (I1 & I2 & I3). split; [lia|]. split; [|exact I3]. intros Hb. rewrite (slice_app pos p1 p') by lia. constructor; auto.
  - destruct (Nat.eqb_spec pos p1) as [<-|N].
    + rewrite andb_false_r in E. injection E as <- <-. split; [lia|]. split; [|discriminate]. intros _. rewrite slice_nil. constructor.
    + assert (strict = true /\ always = false) as [-> ->] by (destruct strict, always; auto; exfalso; apply N; symmetry; apply F3; auto). cbn in E. injection E as <- <-. split; [lia|]. split; [discriminate|auto].
Qed.

(** ** lists *)
Definition parts_ok (ty : nested) (ps : list part) : bool := forallb safe ps && (if is_sequence ty then optional_last ps else forallb stays ps).
Definition group_stays (ty : nested) (ps : list part) : bool := if is_sequence ty then match ps with [] => true | q :: qs => stays q && forallb leaf_optional qs end else forallb stays ps.
Lemma once_sound ty t ps top : parts_ok ty ps = true -> (forall p, In p ps -> match p with Group _ _ _ => rec_sound p | _ => True end) ->
  forall pos b p', (if is_sequence ty then validate_sequence kids fuel rec t ps pos top else validate_choice kids fuel rec ps pos) = Ok (b, p') ->
  pos <= p' /\ (b = true -> once ty ps (slice pos p')) /\ (b = false -> is_sequence ty = false \/ (group_stays ty ps = true /\ top = false) -> p' = pos).
Proof.
  unfold parts_ok, group_stays. intros P Rs pos b p' E. apply andb_true_iff in P as [P1 P2]. rewrite forallb_forall in P1. destruct (is_sequence ty) eqn:Es.
  - destruct ty; try discriminate. cbn [once]. unfold validate_sequence in E. destruct (seq_items kids fuel rec ps pos false) as [s| |] eqn:E1; cbn [bind] in E; try discriminate.
    pose proof (seq_sound ps P1 Rs P2 pos false s E1) as X. destruct s as [b1 p1|p1 st].
    + injection E as <- <-. destruct b1; destruct X as [X1 X2]; (split; [exact X1|]); split; intros Hb; try discriminate; auto. intros [H|[H _]]; [discriminate|auto].
    + destruct X as [X1 X2]. destruct top; [|rewrite !andb_false_r in E; injection E as <- <-; split; [exact X1|]; split; [auto|discriminate]].
      destruct ((times_eqb t TPlus || times_eqb t TOne) && true && (p1 <? length kids)); injection E as <- <-; (split; [exact X1|]); split; intros Hb; try discriminate; auto. intros [H|[_ H]]; discriminate.
  - rewrite forallb_forall in P2. assert (Eo : once ty ps = one_of (map lang ps)) by (destruct ty; try discriminate; reflexivity). rewrite Eo. unfold validate_choice in E.
    destruct (nth_error kids pos) as [node|] eqn:En; [|injection E as <- <-; split; [lia|]; split; [discriminate|reflexivity]].
    destruct (choice_sound ps node pos b p' (fun p I => conj (P1 p I) (P2 p I)) Rs En E) as (X1 & X2 & X3). auto.
Qed.
Lemma list_sound ty t ps top : t <> TUnknown -> parts_ok ty ps = true -> (forall p, In p ps -> match p with Group _ _ _ => rec_sound p | _ => True end) ->
  forall pos b p', item_list_with kids fuel rec ty t ps pos top = Ok (b, p') ->
  pos <= p' /\ (b = true -> if times_eqb t TPlus then star (once ty ps) (slice pos p') else reps t (once ty ps) (slice pos p')) /\ (b = false -> top = false -> group_stays ty ps = true -> p' = pos).
Proof.
  intros Nt P Rs pos b p' E. unfold item_list_with in E. pose proof (once_sound ty t ps top P Rs) as O. set (f := fun pos => if is_sequence ty then validate_sequence kids fuel rec t ps pos top else validate_choice kids fuel rec ps pos) in *.
  assert (M : exists b1 p1, (match t with
                | TOne => f pos
                | TOpt => ' (b, pos) <- f pos ;; if is_sequence ty then Ok (b, pos) else Ok (true, pos)
                | TMany => many_loop fuel (is_sequence ty) f pos
                | TPlus => many_loop fuel (is_sequence ty) f pos
                | TUnknown => Ok (false, pos)
                end) = Ok (b1, p1) /\ p1 = p' /\ (b = true -> b1 = true) /\ (b = false -> top = false -> b1 = false)).
  { destruct (match t with TUnknown => _ | TOne => _ | TOpt => _ | TMany => _ | TPlus => _ end) as [[b1 p1]| |]; cbn [bind] in E; try discriminate. exists b1, p1. split; [reflexivity|].
    destruct b1; cbn [negb] in E; [|injection E as <- <-; auto]. destruct top; cbn [andb] in E; [|injection E as <- <-; auto]. destruct (is_choice ty && (p1 + 1 <? length kids)); injection E as <- <-; repeat split; auto; discriminate. }
  clear E. destruct M as (b1 & p1 & E & -> & Hb1 & Hb2).
  assert (Mk : forall strict, strict = is_sequence ty -> many_loop fuel strict f pos = Ok (b1, p') -> pos <= p' /\ (b1 = true -> star (once ty ps) (slice pos p')) /\ (b1 = false -> group_stays ty ps && negb top = false)).
  { intros strict Es Em. apply (many_sound strict f (once ty ps) (group_stays ty ps && negb top)) in Em; [exact Em|]. intros q b2 p2 E2. destruct (O q b2 p2 E2) as (O1 & O2 & O3). split; [exact O1|]. split; [exact O2|]. intros H1 H2. apply O3; [exact H1|].
    destruct H2 as [H2|H2]; [left; congruence|]. apply andb_true_iff in H2 as [H2 H3]. destruct top; [discriminate|auto]. }
  destruct t; cbn [times_eqb]; try contradiction.
  - destruct (O pos b1 p' E) as (O1 & O2 & O3). split; [exact O1|]. split; [intros Hb; cbn [reps]; auto|]. intros Hb Ht Hs. apply O3; auto.
  - destruct (f pos) as [[b2 p2]| |] eqn:E2; cbn [bind] in E; try discriminate. destruct (O pos b2 p2 E2) as (O1 & O2 & O3). destruct (is_sequence ty) eqn:Es.
    + injection E as <- <-. split; [exact O1|]. split; [intros Hb; right; auto|]. intros Hb Ht Hs. apply O3; auto.
    + injection E as <- <-. split; [exact O1|]. split; [|intros Hb Ht; specialize (Hb2 Hb Ht); discriminate]. intros _. destruct b2; [right; auto|left]. rewrite (O3 eq_refl (or_introl eq_refl)). apply slice_nil.
  - destruct (Mk _ eq_refl E) as (M1 & M2 & M3). split; [exact M1|]. split; [intros Hb; cbn [reps]; auto|]. intros Hb Ht Hs. specialize (M3 (Hb2 Hb Ht)). rewrite Hs, Ht in M3. discriminate.
  - destruct (Mk _ eq_refl E) as (M1 & M2 & M3). split; [exact M1|]. split; [auto|]. intros Hb Ht Hs. specialize (M3 (Hb2 Hb Ht)). rewrite Hs, Ht in M3. discriminate.
Qed.
End Sound.

Lemma item_list_sound kids fuel p : safe p = true -> match p with Group _ _ _ => rec_sound kids (item_list kids fuel) p | _ => True end.
Proof.
  induction p as [x t|ty t ps IH] using part_ind2; [trivial|]. cbn [safe]. intros S0. apply andb_true_iff in S0 as [S1 S3]. apply andb_true_iff in S1 as [S1 S2]. apply andb_true_iff in S1 as [S0 S1]. apply known_times_ok in S0.
  intros pos b p' E. cbn [item_list] in E.
  assert (Pk : parts_ok ty ps = true) by (unfold parts_ok; rewrite S1; exact S2).
  assert (Rs : forall p, In p ps -> match p with Group _ _ _ => rec_sound kids (item_list kids fuel) p | _ => True end) by (intros p I; apply IH; [exact I|]; rewrite forallb_forall in S1; exact (S1 p I)).
  destruct (list_sound kids fuel (item_list kids fuel) ty t ps false S0 Pk Rs pos b p' E) as (X1 & X2 & X3). split; [exact X1|]. split.
  - intros Hb. specialize (X2 Hb). rewrite lang_group. destruct (times_eqb t TPlus) eqn:Et; [|exact X2]. apply times_eqb_eq in Et. subst t. apply star_plus in X2 as [->|X2]; [|exact X2].
    apply reps_nil; [discriminate|]. apply once_nil; [intros q _; apply nullable_ok|exact S3].
  - intros Hb Hs. apply X3; [exact Hb|reflexivity|exact Hs].
Qed.
Theorem children_sound kids fuel p top : safe_top p = true -> validate_children kids fuel p (compulsory_num p) top = Ok true -> lang p kids.
Proof.
  destruct p as [x t|ty t ps]; [discriminate|]. cbn [safe_top]. intros S0 E. apply andb_true_iff in S0 as [S1 S3]. apply andb_true_iff in S1 as [S1 S2]. apply andb_true_iff in S1 as [S0 S1]. apply known_times_ok in S0.
  unfold validate_children in E. destruct (length kids <? compulsory_num (Group ty t ps)) eqn:Em; [discriminate|]. cbn [item_list_top] in E.
  destruct (item_list_with kids fuel (item_list kids fuel) ty t ps 0 top) as [[b p']| |] eqn:Ei; cbn [bind] in E; try discriminate. injection E as E. apply andb_true_iff in E as [-> E].
  assert (Pk : parts_ok ty ps = true) by (unfold parts_ok; rewrite S1; exact S2).
  assert (Rs : forall p, In p ps -> match p with Group _ _ _ => rec_sound kids (item_list kids fuel) p | _ => True end) by (intros p I; apply item_list_sound; rewrite forallb_forall in S1; exact (S1 p I)).
  destruct (list_sound kids fuel _ ty t ps top S0 Pk Rs 0 true p' Ei) as (X1 & X2 & _). specialize (X2 eq_refl). apply negb_true_iff, Nat.ltb_ge in E. rewrite slice_all in X2 by exact E.
  rewrite lang_group. destruct (times_eqb t TPlus) eqn:Et; [|exact X2]. apply times_eqb_eq in Et. subst t. apply star_plus in X2 as [->|X2]; [|exact X2].
  apply orb_true_iff in S3 as [S3|S3]; [apply reps_nil; [discriminate|]; apply once_nil; [intros q _; apply nullable_ok|exact S3]|].
  exfalso. apply Nat.ltb_ge in Em. cbn [compulsory_num times_eqb orb length] in Em.
  assert (C : forall l c, existsb compulsory l = true -> 1 <= compulsory_items ty c l).
  { clear. assert (G : forall l c, c <= compulsory_items ty c l) by (induction l as [|[y t|] l IH]; intros c; cbn [compulsory_items]; [lia| |apply IH]; destruct (times_eqb t TPlus || times_eqb t TOne); [|apply IH]; destruct (is_choice ty); [lia|]; specialize (IH (S c)); lia).
    induction l as [|[y t|] l IH]; intros c H; cbn [existsb compulsory compulsory_items] in *; [discriminate| |apply IH; exact H]. rewrite (orb_comm (times_eqb t TPlus)). destruct (times_eqb t TOne || times_eqb t TPlus); [|apply IH; exact H]. destruct (is_choice ty); [lia|]. specialize (G l (S c)). lia. }
  specialize (C ps 0 S3). lia.
Qed.
