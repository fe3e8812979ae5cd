(** The UTF-8 check. *)
From Coq Require Import NArith.
From Verif Require Import Prelude Arr BabelModel BabelSpec.
Open Scope nat_scope.
Open Scope list_scope.

Lemma inr_rng lo hi c : inr lo hi (N_of_ascii c) = true <-> rng lo hi c.
Proof. unfold inr, rng. rewrite andb_true_iff, !N.leb_le. tauto. Qed.
Lemma inr_not lo hi c : inr lo hi (N_of_ascii c) = false <-> ~ rng lo hi c.
Proof. rewrite <- not_true_iff_false, inr_rng. tauto. Qed.
Lemma byte_at_app pre x k : byte_at (pre ++ x) (length pre + k) = byte_at x k.
Proof. unfold byte_at, aget. rewrite nth_error_app2 by lia. replace (length pre + k - length pre) with k by lia. reflexivity. Qed.
Lemma byte_at_0 a x : byte_at (a :: x) 0 = Ok (N_of_ascii a).
Proof. reflexivity. Qed.
Lemma byte_at_S a x k : byte_at (a :: x) (S k) = byte_at x k.
Proof. reflexivity. Qed.

Definition cont (c : ascii) : bool := inr 128 191 (N_of_ascii c).
Definition first_shape (l : bytes) : option nat :=
  match l with
  | [] => None
  | a :: r =>
    let v := N_of_ascii a in
    if inr 240 247 v then match r with b :: c :: d :: _ => if cont b && cont c && cont d then Some 4 else None | _ => None end
    else if inr 224 239 v then match r with b :: c :: _ => if cont b && cont c then Some 3 else None | _ => None end
    else if inr 192 223 v then match r with b :: _ => if cont b then Some 2 else None | _ => None end
    else if N.leb v 127 then Some 1 else None
  end.
Lemma first_shape_some l k : first_shape l = Some k -> shape (firstn k l) /\ 1 <= k <= length l.
Proof.
  destruct l as [|a r]; [discriminate|]. cbn [first_shape]. unfold cont.
  destruct (inr 240 247 (N_of_ascii a)) eqn:E4.
  { apply inr_rng in E4. destruct r as [|b [|c [|d r]]]; try discriminate. destruct (inr 128 191 (N_of_ascii b)) eqn:B, (inr 128 191 (N_of_ascii c)) eqn:C, (inr 128 191 (N_of_ascii d)) eqn:D; try discriminate.
    intros H; injection H as <-. apply inr_rng in B, C, D. split; [constructor; assumption|cbn; lia]. }
  destruct (inr 224 239 (N_of_ascii a)) eqn:E3.
  { apply inr_rng in E3. destruct r as [|b [|c r]]; try discriminate. destruct (inr 128 191 (N_of_ascii b)) eqn:B, (inr 128 191 (N_of_ascii c)) eqn:C; try discriminate.
    intros H; injection H as <-. apply inr_rng in B, C. split; [constructor; assumption|cbn; lia]. }
  destruct (inr 192 223 (N_of_ascii a)) eqn:E2.
  { apply inr_rng in E2. destruct r as [|b r]; try discriminate. destruct (inr 128 191 (N_of_ascii b)) eqn:B; try discriminate.
    intros H; injection H as <-. apply inr_rng in B. split; [constructor; assumption|cbn; lia]. }
  destruct (N.leb (N_of_ascii a) 127) eqn:E1; [|discriminate]. apply N.leb_le in E1. intros H; injection H as <-. split; [constructor; unfold rng; lia|cbn; lia].
Qed.
Ltac tell a := match goal with
  | H : rng ?lo ?hi a |- context [inr ?l ?h (N_of_ascii a)] => first
      [ replace (inr l h (N_of_ascii a)) with true by (symmetry; apply inr_rng; unfold rng in *; lia)
      | replace (inr l h (N_of_ascii a)) with false by (symmetry; apply inr_not; unfold rng in *; lia) ] end.
Lemma first_shape_prefix s x : shape s -> first_shape (s ++ x) = Some (length s).
Proof.
  intros H; destruct H as [a A|a b A B|a b c A B C|a b c d A B C D]; cbn [app first_shape length]; unfold cont.
  - repeat tell a. unfold rng in A. replace (N.leb (N_of_ascii a) 127) with true by (symmetry; apply N.leb_le; lia). reflexivity.
  - repeat tell a. tell b. reflexivity.
  - repeat tell a. tell b. tell c. reflexivity.
  - repeat tell a. tell b. tell c. tell d. reflexivity.
Qed.
Lemma ltb_off p k l : (p + k <? p + l) = (k <? l).
Proof. destruct (Nat.ltb_spec (p + k) (p + l)), (Nat.ltb_spec k l); lia || reflexivity. Qed.

Lemma loop_step fuel pre suf junk : utf8_loop (S fuel) (pre ++ suf ++ junk) (length pre + length suf) (length pre) =
  match suf with
  | [] => Ok (true, 0)
  | _ => match first_shape suf with
         | Some k => utf8_loop fuel (pre ++ suf ++ junk) (length pre + length suf) (length pre + k)
         | None => Ok (false, length pre)
         end
  end.
Proof.
  cbn [utf8_loop]. replace (length pre <? length pre + length suf) with (0 <? length suf) by (rewrite <- (ltb_off (length pre) 0), Nat.add_0_r; reflexivity).
  destruct suf as [|a r]; [reflexivity|]. replace (0 <? length (a :: r)) with true by reflexivity. set (B := pre ++ (a :: r) ++ junk).
  assert (Ha : byte_at B (length pre) = Ok (N_of_ascii a)) by (unfold B; rewrite <- (Nat.add_0_r (length pre)), byte_at_app; reflexivity).
  rewrite Ha. cbn [bind]. rewrite !ltb_off. cbn [first_shape]. unfold cont. cbn [length]. set (P := length pre + S (length r)).
  assert (Hb : forall b r1, r = b :: r1 -> byte_at B (length pre + 1) = Ok (N_of_ascii b)) by (intros; subst; unfold B; rewrite byte_at_app; reflexivity).
  assert (Hc : forall b c r1, r = b :: c :: r1 -> byte_at B (length pre + 2) = Ok (N_of_ascii c)) by (intros; subst; unfold B; rewrite byte_at_app; reflexivity).
  assert (Hd : forall b c d r1, r = b :: c :: d :: r1 -> byte_at B (length pre + 3) = Ok (N_of_ascii d)) by (intros; subst; unfold B; rewrite byte_at_app; reflexivity).
  destruct (inr 240 247 (N_of_ascii a)) eqn:E4.
  { assert (X3 : inr 224 239 (N_of_ascii a) = false) by (apply inr_rng in E4; apply inr_not; unfold rng in *; lia).
    assert (X2 : inr 192 223 (N_of_ascii a) = false) by (apply inr_rng in E4; apply inr_not; unfold rng in *; lia).
    assert (X1 : N.leb (N_of_ascii a) 127 = false) by (apply inr_rng in E4; apply N.leb_gt; unfold rng in *; lia).
    destruct r as [|b r1]; cbn [length Nat.ltb Nat.leb andb]; [rewrite X3, X2, X1; reflexivity|]. rewrite (Hb b r1 eq_refl). cbn [bind].
    destruct (inr 128 191 (N_of_ascii b)) eqn:Eb; cbn [andb]; [|destruct r1 as [|? [|? ?]]; reflexivity]. destruct r1 as [|c r1]; cbn [length Nat.ltb Nat.leb]; [reflexivity|]. rewrite (Hc b c r1 eq_refl). cbn [bind].
    destruct (inr 128 191 (N_of_ascii c)) eqn:Ec; cbn [andb]; [|destruct r1 as [|? ?]; reflexivity]. destruct r1 as [|d r1]; cbn [length Nat.ltb Nat.leb]; [reflexivity|]. rewrite (Hd b c d r1 eq_refl). cbn [bind].
    destruct (inr 128 191 (N_of_ascii d)); reflexivity. }
  cbn [andb]. destruct (inr 224 239 (N_of_ascii a)) eqn:E3.
  { assert (X2 : inr 192 223 (N_of_ascii a) = false) by (apply inr_rng in E3; apply inr_not; unfold rng in *; lia).
    assert (X1 : N.leb (N_of_ascii a) 127 = false) by (apply inr_rng in E3; apply N.leb_gt; unfold rng in *; lia).
    destruct r as [|b r1]; cbn [length Nat.ltb Nat.leb andb]; [rewrite X2, X1; reflexivity|]. rewrite (Hb b r1 eq_refl). cbn [bind].
    destruct (inr 128 191 (N_of_ascii b)) eqn:Eb; cbn [andb]; [|destruct r1 as [|? ?]; reflexivity]. destruct r1 as [|c r1]; cbn [length Nat.ltb Nat.leb]; [reflexivity|]. rewrite (Hc b c r1 eq_refl). cbn [bind].
    destruct (inr 128 191 (N_of_ascii c)); reflexivity. }
  cbn [andb]. destruct (inr 192 223 (N_of_ascii a)) eqn:E2.
  { assert (X1 : N.leb (N_of_ascii a) 127 = false) by (apply inr_rng in E2; apply N.leb_gt; unfold rng in *; lia).
    destruct r as [|b r1]; cbn [length Nat.ltb Nat.leb andb]; [rewrite X1; reflexivity|]. rewrite (Hb b r1 eq_refl). cbn [bind]. destruct (inr 128 191 (N_of_ascii b)); reflexivity. }
  cbn [andb]. destruct (N.leb (N_of_ascii a) 127); reflexivity.
Qed.

Lemma loop_ok : forall fuel pre suf junk, length suf < fuel ->
  let r := utf8_loop fuel (pre ++ suf ++ junk) (length pre + length suf) (length pre) in
  (row shape suf /\ r = Ok (true, 0)) \/
  (exists good rest, suf = good ++ rest /\ row shape good /\ stuck rest /\ r = Ok (false, length pre + length good)).
Proof.
  induction fuel as [|fuel IH]; intros pre suf junk L; [lia|]. cbv zeta. rewrite loop_step. destruct suf as [|a r]; [left; split; [exists []; auto|reflexivity]|].
  destruct (first_shape (a :: r)) as [k|] eqn:E.
  - destruct (first_shape_some _ _ E) as [S K]. set (suf := a :: r) in *.
    assert (X : pre ++ suf ++ junk = (pre ++ firstn k suf) ++ skipn k suf ++ junk) by (rewrite <- (firstn_skipn k suf) at 1; rewrite <- !app_assoc; reflexivity).
    assert (L1 : length (firstn k suf) = k) by (apply firstn_length_le; lia). assert (L2 : length (skipn k suf) = length suf - k) by apply skipn_length.
    rewrite X. replace (length pre + length suf) with (length (pre ++ firstn k suf) + length (skipn k suf)) by (rewrite app_length, L1, L2; lia).
    replace (length pre + k) with (length (pre ++ firstn k suf)) by (rewrite app_length, L1; reflexivity).
    destruct (IH (pre ++ firstn k suf) (skipn k suf) junk ltac:(lia)) as [((parts & F & C) & ->)|(good & rest & Eg & (parts & F & C) & St & ->)].
    + left. split; [|reflexivity]. exists (firstn k suf :: parts). split; [constructor; assumption|]. cbn [concat]. rewrite C. apply firstn_skipn.
    + right. exists (firstn k suf ++ good), rest. rewrite <- app_assoc, <- Eg, firstn_skipn. split; [reflexivity|]. split; [exists (firstn k suf :: parts); split; [constructor; assumption|cbn [concat]; rewrite C; reflexivity]|].
      split; [exact St|]. rewrite !app_length. do 2 f_equal. lia.
  - right. exists [], (a :: r). split; [reflexivity|]. split; [exists []; auto|]. split; [|rewrite Nat.add_0_r; reflexivity]. split; [discriminate|].
    intros s x S Es. rewrite Es, (first_shape_prefix s x S) in E. discriminate.
Qed.
Lemma shape_prefix s1 x1 s2 x2 : shape s1 -> shape s2 -> s1 ++ x1 = s2 ++ x2 -> s1 = s2 /\ x1 = x2.
Proof.
  intros S1 S2 E. pose proof (first_shape_prefix s1 x1 S1) as P1. rewrite E, (first_shape_prefix s2 x2 S2) in P1. injection P1 as L.
  revert E L. clear. revert s2. induction s1 as [|a s1 IH]; intros [|b s2] E L; try discriminate; [auto|]. injection E as -> E. injection L as L. destruct (IH s2 E L) as [-> ->]. auto.
Qed.
Lemma shape_ne s : shape s -> s <> [].
Proof. intros [ ]; discriminate. Qed.
Lemma row_stuck good rest l : row shape good -> stuck rest -> row shape l -> l <> good ++ rest.
Proof.
  intros (p1 & F1 & <-) [N St] (p2 & F2 & <-). revert p2 F2. induction F1 as [|s p1 S F1 IH]; intros p2 F2 E.
  - cbn [concat app] in E. destruct F2 as [|s2 p2 S2 F2]; cbn [concat] in E; [congruence|]. exact (St s2 (concat p2) S2 (eq_sym E)).
  - destruct F2 as [|s2 p2 S2 F2]; cbn [concat] in E; [symmetry in E; apply app_eq_nil in E as [E _]; apply app_eq_nil in E as [E _]; exact (shape_ne s S E)|].
    rewrite <- app_assoc in E. destruct (shape_prefix _ _ _ _ S2 S E) as [_ E']. exact (IH p2 F2 E').
Qed.

(** what the check does on a buffer that holds [content] followed by anything *)
Lemma check_cases content junk : (row shape content /\ check_utf8 (content ++ junk) (Z.of_nat (length content)) = Ok (true, 0)) \/
  (exists good rest, content = good ++ rest /\ row shape good /\ stuck rest /\ check_utf8 (content ++ junk) (Z.of_nat (length content)) = Ok (false, length good)).
Proof.
  unfold check_utf8. destruct (Z.ltb_spec (Z.of_nat (length content)) (-1)); [lia|]. destruct (Z.eqb_spec (Z.of_nat (length content)) (-1)); [lia|]. cbn [bind]. rewrite Nat2Z.id.
  exact (loop_ok (S (length content)) [] content junk ltac:(lia)).
Qed.
Lemma check_accepts content junk : row shape content <-> check_utf8 (content ++ junk) (Z.of_nat (length content)) = Ok (true, 0).
Proof.
  destruct (check_cases content junk) as [[R E]|(good & rest & Eg & Rg & St & E)]; rewrite E; [tauto|]. split; [|discriminate].
  intros R. exfalso. exact (row_stuck good rest content Rg St R Eg).
Qed.
Lemma check_rejects content junk k : check_utf8 (content ++ junk) (Z.of_nat (length content)) = Ok (false, k) <->
  exists good rest, content = good ++ rest /\ row shape good /\ stuck rest /\ k = length good.
Proof.
  destruct (check_cases content junk) as [[R E]|(good & rest & Eg & Rg & St & E)]; rewrite E.
  - split; [discriminate|]. intros (good & rest & Eg & Rg & St & _). exfalso. exact (row_stuck good rest content Rg St R Eg).
  - split; [intros H; injection H as <-; eauto 6|]. intros (g2 & r2 & Eg2 & Rg2 & St2 & ->). do 2 f_equal.
    assert (H : forall g1 r1 g2 r2, row shape g1 -> stuck r1 -> row shape g2 -> stuck r2 -> g1 ++ r1 = g2 ++ r2 -> length g1 = length g2).
    { clear. intros g1 r1 g2 r2 (p1 & F1 & <-) St1 (p2 & F2 & <-) St2. revert p2 F2. induction F1 as [|s p1 S F1 IH]; intros p2 F2 E.
      - destruct F2 as [|s2 p2 S2 F2]; [reflexivity|]. exfalso. cbn [concat app] in E. rewrite <- app_assoc in E. exact (proj2 St1 s2 _ S2 E).
      - destruct F2 as [|s2 p2 S2 F2]; [exfalso; cbn [concat app] in E; rewrite <- app_assoc in E; exact (proj2 St2 s _ S (eq_sym E))|].
        cbn [concat] in *. rewrite <- !app_assoc in E. destruct (shape_prefix _ _ _ _ S S2 E) as [-> E']. rewrite !app_length. f_equal. exact (IH p2 F2 E'). }
    apply (H good rest g2 r2); auto. congruence.
Qed.
Lemma seq_shape s : utf8_seq s -> shape s.
Proof. intros H; destruct H; constructor; unfold rng in *; lia || assumption. Qed.
Lemma utf8_row l : utf8 l -> row shape l.
Proof. intros (p & F & E). exists p. split; [|exact E]. eapply Forall_impl; [|exact F]. exact seq_shape. Qed.
Lemma check_utf8_accepts content junk : utf8 content -> check_utf8 (content ++ junk) (Z.of_nat (length content)) = Ok (true, 0).
Proof. intros U. apply check_accepts, utf8_row, U. Qed.
Lemma check_string s junk : nul_free s -> check_utf8 (s ++ NUL :: junk) (-1) = check_utf8 (s ++ NUL :: junk) (Z.of_nat (length s)).
Proof.
  intros N. unfold check_utf8. cbn [Z.ltb Z.eqb Z.compare]. unfold strlen.
  assert (E : existsb (Ascii.eqb NUL) (s ++ NUL :: junk) = true) by (apply existsb_exists; exists NUL; split; [apply in_or_app; right; left; reflexivity|apply Ascii.eqb_refl]). rewrite E.
  assert (C : cstr (s ++ NUL :: junk) = s).
  { clear E. induction s as [|c s IH]; cbn [app cstr]; [reflexivity|]. destruct (Ascii.eqb_spec c NUL) as [->|]; [exfalso; apply N; left; reflexivity|]. f_equal. apply IH. intros I. apply N. right. exact I. }
  rewrite C. cbn. destruct (Z.ltb_spec (Z.of_nat (length s)) (-1)); [lia|]. destruct (Z.eqb_spec (Z.of_nat (length s)) (-1)); [lia|]. cbn [bind]. rewrite Nat2Z.id. reflexivity.
Qed.
