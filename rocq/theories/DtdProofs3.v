(** Termination of the validation of content specifications. *)
From Verif Require Import Prelude DtdModel DtdSpec DtdProofs.
Open Scope nat_scope.
Open Scope list_scope.

Section Ends.
Variable kids : list bytes.
Variable fuel : nat.
Notation n := (length kids).
Hypothesis Fuel : n < fuel.

(** the run ends and the position does not go back; it may pass the end, when an alternative
    fails after having moved *)
Lemma leaf_ends y t last : known_times t = true -> forall k om st pos, n - pos < k -> (om = true -> t = TPlus \/ t = TMany) ->
  exists s, leaf_loop kids k y t last om st pos = Ok s /\
    match s with
    | Return true p' => pos <= p' /\ (pos < n -> om = false -> pos < p') /\ (n <= pos -> om = false -> optional t = true)
    | Return false p' => pos <= p'
    | Next p' _ => pos <= p' /\ (om = false -> takes (Leaf y t) = true -> pos < p') /\ (n <= pos -> om = true)
    end.
Proof.
  intros K k. induction k as [|k IH]; intros om st pos Lk T; [lia|]. cbn [leaf_loop]. destruct (nth_error kids pos) as [x|] eqn:En.
  2:{ apply nth_error_None in En. eexists. split; [reflexivity|]. unfold exhausted. destruct om.
      - destruct (T eq_refl) as [->| ->]; cbn; [destruct st, last; cbn|]; repeat split; try lia; auto; discriminate.
      - rewrite andb_false_r. cbn [andb]. destruct t; cbn; repeat split; try lia; auto. }
  assert (Lt : pos < n) by (apply nth_error_Some; congruence).
  assert (Go : t = TPlus \/ t = TMany -> exists s, leaf_loop kids k y t last true (bytes_eqb x y) (S pos) = Ok s /\
    match s with
    | Return true p' => (pos <= p') /\ (pos < n -> om = false -> pos < p') /\ (n <= pos -> om = false -> optional t = true)
    | Return false p' => pos <= p'
    | Next p' _ => (pos <= p') /\ (om = false -> takes (Leaf y t) = true -> pos < p') /\ (n <= pos -> om = true)
    end).
  { intros T2. destruct (IH true (bytes_eqb x y) (S pos) ltac:(lia) ltac:(auto)) as (s & E & X). exists s. split; [exact E|]. destruct s as [[]|]; [destruct X as (X1 & _)|rename X into X1|destruct X as (X1 & _)]; repeat split; intros; lia. }
  destruct (bytes_eqb x y) eqn:Exy; cbn [negb].
  - rewrite andb_false_r. destruct t; try discriminate; cbn [andb]; try (apply Go; auto); eexists; (split; [reflexivity|]); cbn; repeat split; intros; lia.
  - rewrite andb_true_r. destruct t; try discriminate; cbn [times_eqb orb andb]; try (eexists; split; [reflexivity|]; cbn; repeat split; intros; try discriminate; lia).
    destruct om; cbn [negb]; eexists; (split; [reflexivity|]); cbn; repeat split; intros; try discriminate; lia.
Qed.

Variable rec : part -> nat -> res (bool * nat).
Definition rec_ends (p : part) : Prop := match p with Group _ _ _ => forall pos, exists b p', rec p pos = Ok (b, p') /\ pos <= p' /\ (b = true -> takes p = true -> pos < n -> pos < p') | _ => True end.

Lemma seq_ends ps : (forall q, In q ps -> ends q = true) -> (forall q, In q ps -> rec_ends q) -> forall pos st,
  exists s, seq_items kids fuel rec ps pos st = Ok s /\
    match s with
    | Return true p' => pos <= p' /\ (pos < n -> pos < p') /\ (n <= pos -> needs ps = false)
    | Return false p' => pos <= p'
    | Next p' _ => pos <= p' /\ (existsb takes ps = true -> pos < p') /\ (n <= pos -> ps = [])
    end.
Proof.
  induction ps as [|p ps IH]; intros D R pos st.
  - eexists. split; [reflexivity|]. cbn. repeat split; auto; discriminate.
  - assert (X : exists s1, (match p with
           | Leaf y t => leaf_loop kids fuel y t (match ps with [] => true | _ => false end) false st pos
           | Group _ t _ =>
             match nth_error kids pos with
             | None => Ok (exhausted t false st (match ps with [] => true | _ => false end) pos)
             | Some _ => ' (b, pos) <- rec p pos ;; Ok (if b : bool then Next pos st else Return false pos)
             end
           end) = Ok s1 /\
      match s1 with
      | Return true p' => pos <= p' /\ (pos < n -> pos < p') /\ (n <= pos -> optional (repeat_of p) = true)
      | Return false p' => pos <= p'
      | Next p' _ => pos <= p' /\ (takes p = true -> pos < p') /\ pos < n
      end).
    { pose proof (D p (or_introl eq_refl)) as Dp. pose proof (R p (or_introl eq_refl)) as Rp. destruct p as [y t|ty t qs].
      - destruct (leaf_ends y t (match ps with [] => true | _ => false end) Dp fuel false st pos ltac:(lia) ltac:(discriminate)) as (s & E & X). exists s. split; [exact E|]. destruct s as [[]|].
        + destruct X as (X1 & X2 & X3). cbn [repeat_of]. auto.
        + exact X.
        + destruct X as (X1 & X2 & X3). split; [exact X1|]. split; [auto|]. destruct (le_lt_dec n pos) as [E2|N]; [discriminate (X3 E2)|]. exact N.
      - destruct (nth_error kids pos) as [x|] eqn:En.
        + assert (Lt : pos < n) by (apply nth_error_Some; congruence). destruct (Rp pos) as (b & p' & E & M & T). rewrite E. cbn [bind]. eexists. split; [reflexivity|]. destruct b; [|exact M]. repeat split; auto.
        + apply nth_error_None in En. eexists. split; [reflexivity|]. unfold exhausted. rewrite andb_false_r. cbn [andb repeat_of]. destruct t; cbn; repeat split; try lia; auto. }
    destruct X as (s1 & E1 & X). cbn [seq_items]. fold (seq_items kids fuel rec). rewrite E1. cbn [bind]. destruct s1 as [b p1|p1 st1].
    + eexists. split; [reflexivity|]. destruct b; [|exact X]. destruct X as (X1 & X2 & X3). split; [exact X1|]. split; [exact X2|]. intros En. cbn [needs]. rewrite (X3 En). reflexivity.
    + destruct X as (X1 & X2 & X3). destruct (IH (fun q I => D q (or_intror I)) (fun q I => R q (or_intror I)) p1 st1) as (s & E & Y). exists s. split; [exact E|]. destruct s as [[]|p' st'].
      * destruct Y as (Y1 & Y2 & Y3). split; [lia|]. split; [|lia]. intros _. destruct (le_lt_dec n p1) as [E2|N]; [lia|]. specialize (Y2 N). lia.
      * lia.
      * destruct Y as (Y1 & Y2 & Y3). split; [lia|]. split; [|lia]. intros H. cbn [existsb] in H. apply orb_true_iff in H as [H|H]; [specialize (X2 H)|specialize (Y2 H)]; lia.
Qed.
Lemma choice_leaf_ends y t : forall k node om pos, n - pos < k -> exists b p', choice_leaf kids k y t node om pos = Ok (b, p') /\ pos <= p' /\ (b = true -> om = false -> pos < p').
Proof.
  intros k. induction k as [|k IH]; intros node om pos Lk; [lia|]. cbn [choice_leaf]. destruct (bytes_eqb node y).
  - destruct (times_eqb t TOne || times_eqb t TOpt); [do 2 eexists; split; [reflexivity|]; split; lia|]. destruct (times_eqb t TPlus || times_eqb t TMany); [|do 2 eexists; split; [reflexivity|]; split; lia].
    destruct (nth_error kids (S pos)) as [n2|] eqn:E2; [|do 2 eexists; split; [reflexivity|]; split; lia]. assert (Lt : S pos < n) by (apply nth_error_Some; congruence). destruct (IH n2 true (S pos) ltac:(lia)) as (b & p' & E & M & _). exists b, p'. split; [exact E|]. split; lia.
  - do 2 eexists. split; [reflexivity|]. split; [lia|]. intros H ->. rewrite andb_false_r in H. discriminate.
Qed.
Definition alts_take (ps : list part) : bool := forallb (fun q => match q with Leaf _ _ => true | _ => takes q end) ps.
Lemma choice_ends ps node : (forall q, In q ps -> rec_ends q) -> forall pos start, start <= pos -> start < n -> exists b p', choice_items kids fuel rec node ps pos = Ok (b, p') /\ pos <= p' /\ (b = true -> alts_take ps = true -> start < p').
Proof.
  induction ps as [|p ps IH]; intros R pos start L1 L2; [do 2 eexists; split; [reflexivity|]; split; [lia|discriminate]|]. cbn [choice_items]. fold (choice_items kids fuel rec node).
  assert (X : exists b p', match p with Leaf y t => choice_leaf kids fuel y t node false pos | Group _ _ _ => rec p pos end = Ok (b, p') /\ pos <= p' /\ (b = true -> (match p with Leaf _ _ => true | _ => takes p end) = true -> start < p')).
  { pose proof (R p (or_introl eq_refl)) as Rp. destruct p as [y t|ty t qs].
    - destruct (choice_leaf_ends y t fuel node false pos ltac:(lia)) as (b & p' & E & M & X). exists b, p'. split; [exact E|]. split; [exact M|]. intros H _. specialize (X H eq_refl). lia.
    - destruct (Rp pos) as (b & p' & E & M & X). exists b, p'. split; [exact E|]. split; [exact M|]. intros H T. destruct (le_lt_dec n pos) as [G|G]; [lia|]. specialize (X H T G). lia. }
  destruct X as (b & p1 & E & M & X). rewrite E. cbn [bind]. destruct b.
  - exists true, p1. split; [reflexivity|]. split; [exact M|]. intros _ A. unfold alts_take in A. cbn [forallb] in A. apply andb_true_iff in A as [A _]. auto.
  - destruct (IH (fun q I => R q (or_intror I)) p1 start ltac:(lia) L2) as (b & p' & E2 & M2 & X2). exists b, p'. split; [exact E2|]. split; [lia|]. intros H A. unfold alts_take in A. cbn [forallb] in A. apply andb_true_iff in A as [_ A]. auto.
Qed.
Lemma many_ends strict f : (forall pos, exists b p', f pos = Ok (b, p') /\ pos <= p' /\ (b = true -> pos < n /\ pos < p')) -> forall k pos, n - pos < k -> exists b p', many_loop k strict f pos = Ok (b, p') /\ pos <= p'.
Proof.
  intros F k. induction k as [|k IH]; intros pos Lk; [lia|]. cbn [many_loop]. destruct (F pos) as (b & p' & E & M & X). rewrite E. cbn [bind]. destruct b.
  - destruct (X eq_refl) as [X1 X2]. destruct (IH p' ltac:(lia)) as (b & p2 & E2 & M2). exists b, p2. split; [exact E2|lia].
  - destruct (strict && negb (pos =? p')); do 2 eexists; (split; [reflexivity|exact M]).
Qed.
Lemma list_ends ty t ps top : ends (Group ty t ps) = true -> (forall q, In q ps -> rec_ends q) -> forall pos, exists b p', item_list_with kids fuel rec ty t ps pos top = Ok (b, p') /\ pos <= p' /\ (b = true -> takes (Group ty t ps) = true -> pos < n -> pos < p').
Proof.
  intros En R pos. cbn [ends] in En. apply andb_true_iff in En as [E1 E2]. rewrite forallb_forall in E1.
  set (f := fun pos => if is_sequence ty then validate_sequence kids fuel rec t ps pos top else validate_choice kids fuel rec ps pos).
  assert (F : forall pos, exists b p', f pos = Ok (b, p') /\ pos <= p' /\ (b = true -> takes_once ty ps = true -> pos < n -> pos < p') /\ (b = true -> (if is_sequence ty then needs ps else true) = true -> pos < n)).
  { clear pos. intros pos. unfold f, takes_once. destruct (is_sequence ty).
    - unfold validate_sequence. destruct (seq_ends ps E1 R pos false) as (s & E & X). rewrite E. cbn [bind]. destruct s as [[]|p' st].
      + destruct X as (X1 & X2 & X3). do 2 eexists. split; [reflexivity|]. repeat split; auto. intros _ N. destruct (le_lt_dec n pos) as [G|G]; [rewrite (X3 G) in N; discriminate|exact G].
      + do 2 eexists. split; [reflexivity|]. repeat split; auto; discriminate.
      + destruct X as (X1 & X2 & X3). assert (N : needs ps = true -> pos < n) by (intros N; destruct (le_lt_dec n pos) as [G|G]; [rewrite (X3 G) in N; discriminate|exact G]).
        destruct ((times_eqb t TPlus || times_eqb t TOne) && top && (p' <? n)); do 2 eexists; (split; [reflexivity|]); repeat split; auto; discriminate.
    - unfold validate_choice. destruct (nth_error kids pos) as [node|] eqn:Ex.
      + assert (Lt : pos < n) by (apply nth_error_Some; congruence). destruct (choice_ends ps node R pos pos ltac:(lia) Lt) as (b & p' & E & M & X). exists b, p'. repeat split; auto.
      + do 2 eexists. split; [reflexivity|]. repeat split; auto; discriminate. }
  assert (Eq : item_list_with kids fuel rec ty t ps pos top =
    ' (b, pos) <- match t with
                | TOne => f pos
                | TOpt => ' (b, pos) <- f pos ;; if is_sequence ty then Ok (b, pos) else Ok (true, pos)
                | TMany => many_loop fuel (is_sequence ty) f pos
                | TPlus => many_loop fuel (is_sequence ty) f pos
                | TUnknown => Ok (false, pos)
                end ;;
    if negb b then Ok (false, pos)
    else if top && is_choice ty && (pos + 1 <? n) then Ok (false, pos) else Ok (true, pos)) by reflexivity.
  rewrite Eq. clear Eq. clearbody f.
  assert (M : exists b p', match t with
                | TOne => f pos
                | TOpt => ' (b, pos) <- f pos ;; if is_sequence ty then Ok (b, pos) else Ok (true, pos)
                | TMany => many_loop fuel (is_sequence ty) f pos
                | TPlus => many_loop fuel (is_sequence ty) f pos
                | TUnknown => Ok (false, pos)
                end = Ok (b, p') /\ pos <= p' /\ (b = true -> takes (Group ty t ps) = true -> pos < n -> pos < p')).
  { assert (Many : takes_once ty ps && (if is_sequence ty then needs ps else true) = true -> exists b p', many_loop fuel (is_sequence ty) f pos = Ok (b, p') /\ pos <= p').
    { intros H. apply andb_true_iff in H as [H1 H2]. apply many_ends; [|lia]. intros q. destruct (F q) as (b & p' & E & M & X & Y). exists b, p'. split; [exact E|]. split; [exact M|]. intros Hb. specialize (Y Hb H2). split; [exact Y|]. exact (X Hb H1 Y). }
    destruct t.
    - do 2 eexists. split; [reflexivity|]. split; [lia|discriminate].
    - destruct (F pos) as (b & p' & E & M & X & _). exists b, p'. split; [exact E|]. split; [exact M|]. exact X.
    - destruct (F pos) as (b & p' & E & M & X & _). rewrite E. cbn [bind]. cbn [takes]. destruct (is_sequence ty) eqn:Es; do 2 eexists; (split; [reflexivity|]); (split; [exact M|]); cbn [andb]; [|discriminate]. unfold takes_once in X. rewrite Es in X. exact X.
    - destruct (Many E2) as (b & p' & E & M). exists b, p'. split; [exact E|]. split; [exact M|]. discriminate.
    - destruct (Many E2) as (b & p' & E & M). exists b, p'. split; [exact E|]. split; [exact M|]. discriminate. }
  destruct M as (b & p' & E & M & X).
  rewrite E; cbn [bind]; (destruct b; cbn [negb]; [|do 2 eexists; split; [reflexivity|]; split; [exact M|discriminate]]); (destruct (top && is_choice ty && (p' + 1 <? n)); do 2 eexists; (split; [reflexivity|]); (split; [exact M|]); auto; discriminate).
Qed.
End Ends.

Lemma item_list_ends kids fuel : length kids < fuel -> forall p, ends p = true -> rec_ends kids (item_list kids fuel) p.
Proof.
  intros Fu p. induction p as [x t|ty t ps IH] using part_ind2; intros D; [exact I|]. assert (R : forall q, In q ps -> rec_ends kids (item_list kids fuel) q) by (intros q I; apply IH; [exact I|]; cbn [ends] in D; apply andb_true_iff in D as [D _]; rewrite forallb_forall in D; exact (D q I)).
  intros pos. cbn [item_list]. exact (list_ends kids fuel Fu (item_list kids fuel) ty t ps false D R pos).
Qed.
Theorem children_ends kids fuel p m top : ends p = true -> match p with Leaf _ _ => false | _ => true end = true -> length kids < fuel -> exists b, validate_children kids fuel p m top = Ok b.
Proof.
  intros D G Fu. unfold validate_children. destruct (length kids <? m); [eauto|]. destruct p as [x t|ty t ps]; [discriminate|]. cbn [item_list_top].
  assert (R : forall q, In q ps -> rec_ends kids (item_list kids fuel) q) by (intros q I; apply item_list_ends; [exact Fu|]; cbn [ends] in D; apply andb_true_iff in D as [D _]; rewrite forallb_forall in D; exact (D q I)).
  destruct (list_ends kids fuel Fu (item_list kids fuel) ty t ps top D R 0) as (b & p' & E & _). rewrite E. cbn [bind]. eauto.
Qed.
