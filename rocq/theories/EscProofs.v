From Verif Require Import Prelude StrModel StrSpec StrProofs StrProofs2 StrProofs3 EscModel EscSpec.
Open Scope Z_scope.
Local Arguments Z.of_nat : simpl never.
Local Arguments Z.add : simpl never.
Local Arguments Z.sub : simpl never.
Local Arguments Z.mul : simpl never.
Local Arguments Ascii.eqb : simpl never.
Local Arguments firstn : simpl never.
Local Arguments skipn : simpl never.

(** ** the function computed by the escaping loop *)
Definition ent (c : ascii) : option bytes :=
  if Ascii.eqb c apos then Some (s2b "&apos;")
  else if Ascii.eqb c quot then Some (s2b "&quot;")
  else if Ascii.eqb c amp then Some (s2b "&amp;")
  else if Ascii.eqb c gt then Some (s2b "&gt;")
  else if Ascii.eqb c lt then Some (s2b "&lt;")
  else None.
Definition cend (cdata : bool) : bytes := if cdata then s2b "]]>]]&gt;<![CDATA[" else s2b "]]&gt;".
(** the end of a CDATA section starts [s] *)
Definition at_end (s : bytes) : option bytes :=
  match s with
  | a :: b :: c :: r => if Ascii.eqb a rsq && (Ascii.eqb b rsq && Ascii.eqb c gt) then Some r else None
  | _ => None
  end.
Fixpoint esc_n (fuel : nat) (cdata : bool) (s : bytes) : bytes :=
  match fuel with
  | O => []
  | S fuel' =>
    match s with
    | [] => []
    | c :: s' =>
      match ent c with
      | Some e => e ++ esc_n fuel' cdata s'
      | None =>
        match at_end s with
        | Some r => cend cdata ++ esc_n fuel' cdata r
        | None => c :: esc_n fuel' cdata s'
        end
      end
    end
  end.
Definition esc (cdata : bool) (s : bytes) : bytes := esc_n (length s) cdata s.

Lemma at_end_some s r : at_end s = Some r -> s = rsq :: rsq :: gt :: r.
Proof.
  destruct s as [|a [|b [|c r']]]; simpl; try discriminate.
  destruct (Ascii.eqb_spec a rsq); [|discriminate]. destruct (Ascii.eqb_spec b rsq); [|discriminate].
  destruct (Ascii.eqb_spec c gt); [|discriminate]. simpl. intro E. injection E as <-. subst. reflexivity.
Qed.
Lemma esc_n_irrel cdata : forall n m s, (length s <= n)%nat -> (length s <= m)%nat ->
  esc_n n cdata s = esc_n m cdata s.
Proof.
  induction n as [|n IH]; intros m s Hn Hm; destruct s as [|c s]; try (simpl in Hn; lia);
    destruct m as [|m]; try (simpl in Hm; lia); try reflexivity.
  cbn [esc_n]. cbn [length] in Hn, Hm. destruct (ent c) eqn:E.
  - f_equal. apply IH; lia.
  - destruct (at_end (c :: s)) as [r|] eqn:Er.
    + apply at_end_some in Er. injection Er as _ ->. cbn [length] in Hn, Hm. f_equal. apply IH; lia.
    + f_equal. apply IH; lia.
Qed.
Lemma esc_n_S n cdata c s : esc_n (S n) cdata (c :: s) =
  match ent c with
  | Some e => e ++ esc_n n cdata s
  | None =>
    match at_end (c :: s) with
    | Some r => cend cdata ++ esc_n n cdata r
    | None => c :: esc_n n cdata s
    end
  end.
Proof. reflexivity. Qed.
Lemma esc_nil cdata : esc cdata [] = [].
Proof. reflexivity. Qed.
Lemma esc_ent cdata c e s : ent c = Some e -> esc cdata (c :: s) = e ++ esc cdata s.
Proof. intro E. unfold esc. cbn [length esc_n]. rewrite E. reflexivity. Qed.
Lemma esc_end cdata s : esc cdata (rsq :: rsq :: gt :: s) = cend cdata ++ esc cdata s.
Proof.
  unfold esc. cbn [length]. rewrite esc_n_S. change (ent rsq) with (@None bytes). cbv iota.
  change (at_end (rsq :: rsq :: gt :: s)) with (Some s). cbv iota. f_equal. apply esc_n_irrel; lia.
Qed.
Lemma esc_plain cdata c s : ent c = None -> at_end (c :: s) = None -> esc cdata (c :: s) = c :: esc cdata s.
Proof. intros E1 E2. unfold esc. cbn [length esc_n]. rewrite E1, E2. reflexivity. Qed.

Lemma ent_len c e : ent c = Some e -> (2 <= length e)%nat.
Proof.
  unfold ent. repeat (match goal with |- context [if ?b then _ else _] => destruct b end;
    [intro X; injection X as <-; cbn; lia|]). discriminate.
Qed.
Lemma esc_len cdata : forall n s, (length s <= n)%nat -> (length s <= length (esc cdata s))%nat.
Proof.
  induction n as [|n IH]; intros [|c s] H; try (cbn in *; lia). cbn [length] in H.
  destruct (ent c) as [e|] eqn:E.
  - rewrite (esc_ent _ _ _ _ E), app_length. pose proof (ent_len _ _ E). pose proof (IH s ltac:(lia)). cbn [length]. lia.
  - destruct (at_end (c :: s)) as [r|] eqn:Er.
    + apply at_end_some in Er. rewrite Er, esc_end, app_length. injection Er as _ ->.
      cbn [length] in *. pose proof (IH r ltac:(lia)). destruct cdata; cbn [cend]; 
      [change (length (s2b "]]>]]&gt;<![CDATA[")) with 18%nat|change (length (s2b "]]&gt;")) with 6%nat]; lia.
    + rewrite (esc_plain _ _ _ E Er). cbn [length]. pose proof (IH s ltac:(lia)). lia.
Qed.
Lemma esc_same cdata : forall n s, (length s <= n)%nat -> length (esc cdata s) = length s -> esc cdata s = s.
Proof.
  induction n as [|n IH]; intros [|c s] H L; try (cbn in *; lia); [reflexivity|reflexivity|]. cbn [length] in H.
  destruct (ent c) as [e|] eqn:E.
  - rewrite (esc_ent _ _ _ _ E), app_length in L. pose proof (ent_len _ _ E).
    pose proof (esc_len cdata _ s (le_n _)). cbn [length] in L. lia.
  - destruct (at_end (c :: s)) as [r|] eqn:Er.
    + apply at_end_some in Er. rewrite Er, esc_end, app_length in L. injection Er as _ ->.
      cbn [length] in *. pose proof (esc_len cdata _ r (le_n _)). destruct cdata; cbn [cend] in L;
      [change (length (s2b "]]>]]&gt;<![CDATA[")) with 18%nat in L|change (length (s2b "]]&gt;")) with 6%nat in L]; lia.
    + rewrite (esc_plain _ _ _ E Er) in *. cbn [length] in L. f_equal. apply IH; lia.
Qed.

(** ** the look-ahead *)
(** the end of a CDATA section does not begin in [f] and end in [r] *)
Definition no_straddle (f r : bytes) : Prop :=
  forall a x y b, f = a ++ x -> r = y ++ b -> x <> [] -> y <> [] -> x ++ y <> cdata_end.
Lemma no_straddle_app p f r : no_straddle (p ++ f) r -> no_straddle f r.
Proof. intros H a x y b E1 E2. apply (H (p ++ a) x y b); [rewrite E1, app_assoc; reflexivity|exact E2]. Qed.
Lemma no_straddle_cons c f r : no_straddle (c :: f) r -> no_straddle f r.
Proof. apply (no_straddle_app [c]). Qed.

Lemma rd1 l a b r : rd (l ++ a :: b :: r) (Z.of_nat (length l) + 1) = Ok b.
Proof.
  change (l ++ a :: b :: r) with (l ++ [a] ++ b :: r). rewrite app_assoc. apply rd_app. rewrite app_length. cbn. lia.
Qed.
Lemma rd2 l a b c r : rd (l ++ a :: b :: c :: r) (Z.of_nat (length l) + 2) = Ok c.
Proof.
  change (l ++ a :: b :: c :: r) with (l ++ [a; b] ++ c :: r). rewrite app_assoc. apply rd_app. rewrite app_length. cbn. lia.
Qed.
Lemma at_cdata_end_ok l c f r0 rest i : no_straddle (c :: f) (r0 ++ NUL :: rest) ->
  i = Z.of_nat (length l) ->
  at_cdata_end (l ++ (c :: f) ++ r0 ++ NUL :: rest) i =
  Ok (match at_end (c :: f) with Some _ => true | None => false end).
Proof.
  intros H ->. unfold at_cdata_end. cbn [app].
  rewrite (rd_app l c) by reflexivity. cbn [bind].
  destruct (Ascii.eqb_spec c rsq) as [->|N]; cbn [negb].
  2:{ f_equal. unfold at_end. destruct f as [|d [|e f]]; try reflexivity.
      destruct (Ascii.eqb_spec c rsq); [contradiction|reflexivity]. }
  destruct f as [|d f]; cbn [app].
  - destruct r0 as [|d r0]; cbn [app]; rewrite rd1; cbn [bind]; [reflexivity|].
    destruct (Ascii.eqb_spec d rsq) as [->|]; cbn [negb]; [|reflexivity].
    destruct r0 as [|e r0]; cbn [app]; rewrite rd2; cbn [bind]; [reflexivity|].
    destruct (Ascii.eqb_spec e gt) as [->|]; [|reflexivity].
    exfalso. apply (H [] [rsq] [rsq; gt] (r0 ++ NUL :: rest)); try reflexivity; discriminate.
  - rewrite rd1. cbn [bind].
    destruct (Ascii.eqb_spec d rsq) as [->|N]; cbn [negb].
    2:{ f_equal. unfold at_end. destruct f as [|e f]; try reflexivity.
        destruct (Ascii.eqb_spec d rsq); [contradiction|]. rewrite andb_false_r. reflexivity. }
    destruct f as [|e f]; cbn [app].
    + destruct r0 as [|e r0]; cbn [app]; rewrite rd2; cbn [bind]; [reflexivity|].
      destruct (Ascii.eqb_spec e gt) as [->|]; [|reflexivity].
      exfalso. apply (H [] [rsq; rsq] [gt] (r0 ++ NUL :: rest)); try reflexivity; discriminate.
    + rewrite rd2. cbn [bind].
      unfold at_end. rewrite Ascii.eqb_refl. cbn [andb]. destruct (Ascii.eqb e gt); reflexivity.
Qed.

(** ** the counting pass *)
Definition grows (cdata : bool) (f : bytes) : bool := Nat.ltb (length f) (length (esc cdata f)).

Lemma invalid_step fuel b size cdata it result added :
  invalid_loop (S fuel) b size cdata it result added =
    if it <? size then
      c <- rd b it ;;
      let '(result, added) := if Ascii.eqb c apos then (true, added + 5) else (result, added) in
      let '(result, added) := if Ascii.eqb c quot then (true, added + 5) else (result, added) in
      let '(result, added) := if Ascii.eqb c amp then (true, added + 4) else (result, added) in
      let '(result, added) := if Ascii.eqb c gt then (true, added + 3) else (result, added) in
      let '(result, added) := if Ascii.eqb c lt then (true, added + 3) else (result, added) in
      e <- at_cdata_end b it ;;
      if (e : bool) then invalid_loop fuel b size cdata (it + 3) true (added + (if cdata then 15 else 3))
      else invalid_loop fuel b size cdata (it + 1) result added
    else Ok (result, added).
Proof. reflexivity. Qed.

Ltac solve_ent :=
  repeat match goal with |- context [Ascii.eqb ?a ?b] =>
    let v := eval vm_compute in (Ascii.eqb a b) in change (Ascii.eqb a b) with v end; cbv iota beta;
  match goal with |- context [length (s2b ?x)] => let v := eval vm_compute in (length (s2b x)) in change (length (s2b x)) with v end;
  f_equal; lia.
Lemma ent_eqs c (result : bool) (added : Z) :
  (let '(result, added) := if Ascii.eqb c apos then (true, added + 5) else (result, added) in
   let '(result, added) := if Ascii.eqb c quot then (true, added + 5) else (result, added) in
   let '(result, added) := if Ascii.eqb c amp then (true, added + 4) else (result, added) in
   let '(result, added) := if Ascii.eqb c gt then (true, added + 3) else (result, added) in
   let '(result, added) := if Ascii.eqb c lt then (true, added + 3) else (result, added) in
   (result, added)) =
  match ent c with Some e => (true, added + Z.of_nat (length e) - 1) | None => (result, added) end.
Proof.
  unfold ent.
  destruct (Ascii.eqb_spec c apos) as [->|N1]; [solve_ent|].
  destruct (Ascii.eqb_spec c quot) as [->|N2]; [solve_ent|].
  destruct (Ascii.eqb_spec c amp) as [->|N3]; [solve_ent|].
  destruct (Ascii.eqb_spec c gt) as [->|N4]; [solve_ent|].
  destruct (Ascii.eqb_spec c lt) as [->|N5]; [solve_ent|].
  reflexivity.
Qed.

Lemma invalid_loop_ok cdata : forall fuel f l r0 rest result added,
  (length f < fuel)%nat -> no_straddle f (r0 ++ NUL :: rest) ->
  invalid_loop fuel (l ++ f ++ r0 ++ NUL :: rest) (Z.of_nat (length l) + Z.of_nat (length f)) cdata
    (Z.of_nat (length l)) result added =
  Ok (result || grows cdata f, added + (Z.of_nat (length (esc cdata f)) - Z.of_nat (length f))).
Proof.
  induction fuel as [|fuel IH]; intros f l r0 rest result added Hf Hs; [lia|].
  rewrite invalid_step. destruct f as [|c f].
  - rewrite Z.ltb_irrefl || (replace (Z.of_nat (length l) + Z.of_nat (length (@nil ascii))) with (Z.of_nat (length l)) by (cbn; lia);
      rewrite Z.ltb_irrefl).
    unfold grows. cbn. rewrite orb_false_r. f_equal. f_equal. lia.
  - destruct (Z.ltb_spec (Z.of_nat (length l)) (Z.of_nat (length l) + Z.of_nat (length (c :: f)))) as [_|L];
      [|cbn [length] in L; lia].
    rewrite at_cdata_end_ok by (assumption || reflexivity).
    cbn [app]. rewrite (rd_app l c) by reflexivity. cbn [bind].
    match goal with |- ?lhs = _ => assert (A : lhs =
      let '(result, added) := match ent c with Some e => (true, added + Z.of_nat (length e) - 1) | None => (result, added) end in
      if match at_end (c :: f) with Some _ => true | None => false end
      then invalid_loop fuel (l ++ c :: f ++ r0 ++ NUL :: rest) (Z.of_nat (length l) + Z.of_nat (length (c :: f))) cdata
             (Z.of_nat (length l) + 3) true (added + (if cdata then 15 else 3))
      else invalid_loop fuel (l ++ c :: f ++ r0 ++ NUL :: rest) (Z.of_nat (length l) + Z.of_nat (length (c :: f))) cdata
             (Z.of_nat (length l) + 1) result added) end.
    { rewrite <- (ent_eqs c result added).
      destruct (Ascii.eqb c apos), (Ascii.eqb c quot), (Ascii.eqb c amp), (Ascii.eqb c gt), (Ascii.eqb c lt); reflexivity. }
    rewrite A; clear A.
    destruct (ent c) as [e|] eqn:E.
    + assert (A : at_end (c :: f) = None).
      { destruct (at_end (c :: f)) eqn:Ea; [|reflexivity]. apply at_end_some in Ea. injection Ea as -> _. discriminate E. }
      rewrite A.
      replace (l ++ c :: f ++ r0 ++ NUL :: rest) with ((l ++ [c]) ++ f ++ r0 ++ NUL :: rest) by (rewrite <- app_assoc; reflexivity).
      replace (Z.of_nat (length l) + 1) with (Z.of_nat (length (l ++ [c]))) by (rewrite app_length; cbn; lia).
      replace (Z.of_nat (length l) + Z.of_nat (length (c :: f))) with (Z.of_nat (length (l ++ [c])) + Z.of_nat (length f))
        by (rewrite app_length; cbn [length]; lia).
      rewrite IH by (cbn [length] in Hf; try lia; eapply no_straddle_cons; eassumption).
      unfold grows. rewrite (esc_ent _ _ _ _ E), app_length. cbn [length].
      pose proof (ent_len _ _ E). pose proof (esc_len cdata _ f (le_n _)).
      destruct (Nat.ltb_spec (S (length f)) (length e + length (esc cdata f))); [|lia].
      rewrite orb_true_r. cbn [orb]. f_equal. f_equal. lia.
    + destruct (at_end (c :: f)) as [g|] eqn:Ea.
      * apply at_end_some in Ea. injection Ea as -> ->.
        replace (l ++ rsq :: (rsq :: gt :: g) ++ r0 ++ NUL :: rest) with ((l ++ [rsq; rsq; gt]) ++ g ++ r0 ++ NUL :: rest)
          by (rewrite <- app_assoc; reflexivity).
        replace (Z.of_nat (length l) + 3) with (Z.of_nat (length (l ++ [rsq; rsq; gt]))) by (rewrite app_length; cbn; lia).
        replace (Z.of_nat (length l) + Z.of_nat (length (rsq :: rsq :: gt :: g))) with
          (Z.of_nat (length (l ++ [rsq; rsq; gt])) + Z.of_nat (length g)) by (rewrite app_length; cbn [length]; lia).
        rewrite IH by (cbn [length] in Hf; try lia; eapply (no_straddle_app [rsq; rsq; gt]); eassumption).
        unfold grows. rewrite esc_end, app_length. cbn [length].
        pose proof (esc_len cdata _ g (le_n _)).
        assert (L : length (cend cdata) = if cdata then 18%nat else 6%nat) by (destruct cdata; reflexivity).
        destruct (Nat.ltb_spec (S (S (S (length g)))) (length (cend cdata) + length (esc cdata g))); [|destruct cdata; lia].
        rewrite orb_true_r. cbn [orb]. f_equal. f_equal. destruct cdata; lia.
      * replace (l ++ c :: f ++ r0 ++ NUL :: rest) with ((l ++ [c]) ++ f ++ r0 ++ NUL :: rest) by (rewrite <- app_assoc; reflexivity).
        replace (Z.of_nat (length l) + 1) with (Z.of_nat (length (l ++ [c]))) by (rewrite app_length; cbn; lia).
        replace (Z.of_nat (length l) + Z.of_nat (length (c :: f))) with (Z.of_nat (length (l ++ [c])) + Z.of_nat (length f))
          by (rewrite app_length; cbn [length]; lia).
        rewrite IH by (cbn [length] in Hf; try lia; eapply no_straddle_cons; eassumption).
        unfold grows. rewrite (esc_plain _ _ _ E Ea). cbn [length]. f_equal. f_equal. lia.
Qed.

(** ** the copying pass *)
Lemma escape_step fuel b size cdata out it it2 :
  escape_loop (S fuel) b size cdata out it it2 =
    if it2 <? size then
      c <- rd b it2 ;;
      match ent c with
      | Some e => out <- memcpy_to out it e ;; escape_loop fuel b size cdata out (it + Z.of_nat (length e)) (it2 + 1)
      | None =>
        e <- at_cdata_end b it2 ;;
        if (e : bool) then
          (out <- memcpy_to out it (cend cdata) ;;
           escape_loop fuel b size cdata out (it + Z.of_nat (length (cend cdata))) (it2 + 3))
        else (out <- wr out it c ;; escape_loop fuel b size cdata out (it + 1) (it2 + 1))
      end
    else Ok out.
Proof.
  cbn [escape_loop]. destruct (it2 <? size); [|reflexivity]. destruct (rd b it2) as [c| |]; [|reflexivity|reflexivity].
  cbn [bind]. unfold ent.
  destruct (Ascii.eqb c apos); [reflexivity|]. destruct (Ascii.eqb c quot); [reflexivity|].
  destruct (Ascii.eqb c amp); [reflexivity|]. destruct (Ascii.eqb c gt); [reflexivity|].
  destruct (Ascii.eqb c lt); [reflexivity|]. destruct (at_cdata_end b it2) as [e| |]; [|reflexivity|reflexivity].
  cbn [bind]. destruct e, cdata; reflexivity.
Qed.

Lemma escape_loop_ok cdata : forall fuel f l r0 rest done,
  (length f < fuel)%nat -> no_straddle f (r0 ++ NUL :: rest) ->
  escape_loop fuel (l ++ f ++ r0 ++ NUL :: rest) (Z.of_nat (length l) + Z.of_nat (length f)) cdata
    (done ++ repeat NUL (length (esc cdata f) + 1)) (Z.of_nat (length done)) (Z.of_nat (length l)) =
  Ok ((done ++ esc cdata f) ++ [NUL]).
Proof.
  induction fuel as [|fuel IH]; intros f l r0 rest done Hf Hs; [lia|].
  rewrite escape_step. destruct f as [|c f].
  - replace (Z.of_nat (length l) + Z.of_nat (length (@nil ascii))) with (Z.of_nat (length l)) by (cbn; lia).
    rewrite Z.ltb_irrefl. rewrite esc_nil. cbn [length plus repeat]. rewrite app_nil_r. reflexivity.
  - destruct (Z.ltb_spec (Z.of_nat (length l)) (Z.of_nat (length l) + Z.of_nat (length (c :: f)))) as [_|L];
      [|cbn [length] in L; lia].
    rewrite at_cdata_end_ok by (assumption || reflexivity).
    cbn [app]. rewrite (rd_app l c) by reflexivity. cbn [bind].
    assert (R1 : l ++ c :: f ++ r0 ++ NUL :: rest = (l ++ [c]) ++ f ++ r0 ++ NUL :: rest) by (rewrite <- app_assoc; reflexivity).
    assert (R2 : Z.of_nat (length l) + 1 = Z.of_nat (length (l ++ [c]))) by (rewrite app_length; cbn; lia).
    assert (R3 : Z.of_nat (length l) + Z.of_nat (length (c :: f)) = Z.of_nat (length (l ++ [c])) + Z.of_nat (length f))
        by (rewrite app_length; cbn [length]; lia).
    destruct (ent c) as [e|] eqn:E.
    + rewrite (esc_ent _ _ _ _ E), app_length, memcpy_fresh by lia. cbn [bind].
      replace (length e + length (esc cdata f) + 1 - length e)%nat with (length (esc cdata f) + 1)%nat by lia.
      rewrite R1, R2, R3. replace (Z.of_nat (length done) + Z.of_nat (length e)) with (Z.of_nat (length (done ++ e)))
        by (rewrite app_length; lia).
      rewrite IH by (cbn [length] in Hf; try lia; eapply no_straddle_cons; eassumption).
      rewrite <- !app_assoc. reflexivity.
    + destruct (at_end (c :: f)) as [g|] eqn:Ea; cbn [bind].
      * apply at_end_some in Ea. injection Ea as -> ->.
        rewrite esc_end, app_length, memcpy_fresh by lia. cbn [bind].
        replace (length (cend cdata) + length (esc cdata g) + 1 - length (cend cdata))%nat with (length (esc cdata g) + 1)%nat by lia.
        replace (l ++ rsq :: (rsq :: gt :: g) ++ r0 ++ NUL :: rest) with ((l ++ [rsq; rsq; gt]) ++ g ++ r0 ++ NUL :: rest)
          by (rewrite <- app_assoc; reflexivity).
        replace (Z.of_nat (length l) + 3) with (Z.of_nat (length (l ++ [rsq; rsq; gt]))) by (rewrite app_length; cbn; lia).
        replace (Z.of_nat (length l) + Z.of_nat (length (rsq :: rsq :: gt :: g))) with
          (Z.of_nat (length (l ++ [rsq; rsq; gt])) + Z.of_nat (length g)) by (rewrite app_length; cbn [length]; lia).
        replace (Z.of_nat (length done) + Z.of_nat (length (cend cdata))) with (Z.of_nat (length (done ++ cend cdata)))
          by (rewrite app_length; lia).
        rewrite IH by (cbn [length] in Hf; try lia; eapply (no_straddle_app [rsq; rsq; gt]); eassumption).
        rewrite <- !app_assoc. reflexivity.
      * rewrite (esc_plain _ _ _ E Ea). cbn [length plus repeat]. rewrite (wr_app done) by reflexivity. cbn [bind].
        replace (done ++ c :: repeat NUL (length (esc cdata f) + 1)) with ((done ++ [c]) ++ repeat NUL (length (esc cdata f) + 1))
          by (rewrite <- app_assoc; reflexivity).
        cbn [length] in R3. rewrite R1, R2, R3. replace (Z.of_nat (length done) + 1) with (Z.of_nat (length (done ++ [c])))
          by (rewrite app_length; cbn; lia).
        rewrite IH by (cbn [length] in Hf; try lia; eapply no_straddle_cons; eassumption).
        rewrite <- !app_assoc. reflexivity.
Qed.

(** ** escaping character by character *)
Definition echar (c : ascii) : bytes := match ent c with Some e => e | None => [c] end.
Lemma esc_false_chars : forall n s, (length s <= n)%nat -> esc false s = flat_map echar s.
Proof.
  induction n as [|n IH]; intros [|c s] H; try (cbn in H; lia); try reflexivity. cbn [length] in H.
  cbn [flat_map]. unfold echar at 1. destruct (ent c) as [e|] eqn:E.
  - rewrite (esc_ent _ _ _ _ E), IH by lia. reflexivity.
  - destruct (at_end (c :: s)) as [r|] eqn:Er.
    + apply at_end_some in Er. injection Er as -> ->. cbn [length] in H.
      rewrite esc_end, IH by lia. reflexivity.
    + rewrite (esc_plain _ _ _ E Er), IH by lia. reflexivity.
Qed.
Lemma esc_chars s : esc false s = flat_map echar s.
Proof. apply (esc_false_chars (length s)). lia. Qed.
Lemma esc_true_chars : forall n s, (length s <= n)%nat -> ~ occurs cdata_end s -> esc true s = flat_map echar s.
Proof.
  induction n as [|n IH]; intros [|c s] H Hn; try (cbn in H; lia); try reflexivity. cbn [length] in H.
  assert (Hn' : ~ occurs cdata_end s).
  { intros (a & b & E). apply Hn. exists (c :: a), b. rewrite E. reflexivity. }
  cbn [flat_map]. unfold echar at 1. destruct (ent c) as [e|] eqn:E.
  - rewrite (esc_ent _ _ _ _ E), IH by (lia || assumption). reflexivity.
  - destruct (at_end (c :: s)) as [r|] eqn:Er.
    + apply at_end_some in Er. exfalso. apply Hn. exists [], r. exact Er.
    + rewrite (esc_plain _ _ _ E Er), IH by (lia || assumption). reflexivity.
Qed.

Lemma ent_cases c : ent c = None \/
  (c = apos /\ ent c = Some (s2b "&apos;")) \/ (c = quot /\ ent c = Some (s2b "&quot;")) \/
  (c = amp /\ ent c = Some (s2b "&amp;")) \/ (c = gt /\ ent c = Some (s2b "&gt;")) \/
  (c = lt /\ ent c = Some (s2b "&lt;")).
Proof.
  unfold ent.
  destruct (Ascii.eqb_spec c apos) as [->|N1]; [tauto|].
  destruct (Ascii.eqb_spec c quot) as [->|N2]; [tauto|].
  destruct (Ascii.eqb_spec c amp) as [->|N3]; [tauto|].
  destruct (Ascii.eqb_spec c gt) as [->|N4]; [tauto|].
  destruct (Ascii.eqb_spec c lt) as [->|N5]; tauto.
Qed.
Lemma ent_none c : ent c = None -> c <> apos /\ c <> quot /\ c <> amp /\ c <> gt /\ c <> lt.
Proof.
  unfold ent.
  destruct (Ascii.eqb_spec c apos) as [->|N1]; [discriminate|].
  destruct (Ascii.eqb_spec c quot) as [->|N2]; [discriminate|].
  destruct (Ascii.eqb_spec c amp) as [->|N3]; [discriminate|].
  destruct (Ascii.eqb_spec c gt) as [->|N4]; [discriminate|].
  destruct (Ascii.eqb_spec c lt) as [->|N5]; [discriminate|]. tauto.
Qed.

Lemma echar_nul_free c : Ascii.eqb c NUL = false -> nul_free (echar c).
Proof.
  intro H. unfold echar. destruct (ent_cases c) as [E|D].
  - rewrite E. apply nul_free_cons. split; [exact H|apply nul_free_nil].
  - destruct D as [[_ E]|[[_ E]|[[_ E]|[[_ E]|[_ E]]]]]; rewrite E; intro I; vm_compute in I; intuition discriminate.
Qed.
Lemma chars_nul_free s : nul_free s -> nul_free (flat_map echar s).
Proof.
  induction s as [|c s IH]; intro H; [exact H|]. apply nul_free_cons in H. destruct H as [H1 H2].
  cbn [flat_map]. apply nul_free_app. split; [apply echar_nul_free; exact H1|apply IH; exact H2].
Qed.
Lemma ent_chars c e x : ent c = Some e -> In x e -> ~ In x (s2b "<>'" ++ ["034"%char]).
Proof.
  intros E I J. destruct (ent_cases c) as [E'|D]; [congruence|].
  vm_compute in J. destruct J as [<-|[<-|[<-|[<-|[]]]]];
    destruct D as [[_ E']|[[_ E']|[[_ E']|[[_ E']|[_ E']]]]]; rewrite E' in E; injection E as <-;
    vm_compute in I; intuition discriminate.
Qed.
Lemma chars_no_markup s : no_markup (flat_map echar s).
Proof.
  split.
  - intros x I. apply in_flat_map in I. destruct I as (c & _ & I). unfold echar in I.
    destruct (ent c) as [e|] eqn:E; [eapply ent_chars; eassumption|].
    destruct I as [->|[]]. apply ent_none in E. intro J. vm_compute in J.
    destruct E as (N1 & N2 & N3 & N4 & N5). destruct J as [<-|[<-|[<-|[<-|[]]]]]; [apply N5|apply N4|apply N1|apply N2]; reflexivity.
  - induction s as [|c s IH]; intros a b E; [destruct a; discriminate|].
    cbn [flat_map] in E. unfold echar in E. destruct (ent c) as [e|] eqn:Ec.
    + assert (In e entities /\ exists t, e = "&"%char :: t /\ ~ In "&"%char t) as [Ie (t & Et & Nt)].
      { destruct (ent_cases c) as [E'|D]; [congruence|].
        destruct D as [[_ E']|[[_ E']|[[_ E']|[[_ E']|[_ E']]]]]; rewrite E' in Ec; injection Ec as <-;
        (split; [vm_compute; tauto|]); eexists; (split; [vm_compute; reflexivity|]); vm_compute; intuition discriminate. }
      destruct a as [|x a].
      * cbn [app] in E. exists e, (flat_map echar s). split; [exact Ie|]. symmetry. exact E.
      * rewrite Et in E. cbn [app] in E. injection E as _ E.
        (* a is longer than t *)
        revert t a Et Nt E. 
        assert (G : forall t a, ~ In "&"%char t -> t ++ flat_map echar s = a ++ "&"%char :: b ->
                  exists a', flat_map echar s = a' ++ "&"%char :: b).
        { induction t as [|y t IHt]; intros a Nt E; [exists a; exact E|].
          destruct a as [|z a]; cbn [app] in E; injection E as E1 E2.
          - exfalso. apply Nt. left. exact E1.
          - apply (IHt a); [intro I; apply Nt; right; exact I|exact E2]. }
        intros t a _ Nt E. destruct (G t a Nt E) as [a' E']. exact (IH a' b E').
    + destruct a as [|x a]; cbn [app] in E; injection E as E1 E2.
      * apply ent_none in Ec. destruct Ec as (_ & _ & N & _). contradiction.
      * exact (IH a b E2).
Qed.

(** ** translating back *)
Lemma stream_cmp_lit s t v n : nul_free s -> nul_free v -> v <> [] -> n = Z.of_nat (length v) ->
  stream_cmp (Some (s ++ NUL :: t)) (Some (cs v)) n = Ok (match after v s with Some _ => true | None => false end).
Proof.
  intros Hs Hv Hne ->. unfold cs. rewrite stream_cmp_ok; auto.
  - rewrite nat_id, start_eq_after by assumption. reflexivity.
  - destruct v; [contradiction|cbn [length]; lia].
Qed.
Lemma nul_free_lit v : forallb (fun c => negb (Ascii.eqb c NUL)) v = true -> nul_free v.
Proof.
  intros H I. rewrite forallb_forall in H. specialize (H _ I). rewrite Ascii.eqb_refl in H. discriminate.
Qed.

Lemma translate_step fuel l s t size it it2 (Hs : nul_free s) (Hi : it = Z.of_nat (length l)) :
  let b := l ++ s ++ NUL :: t in
  translate_loop (S fuel) b size it it2 =
    if it <? size then
      if match after (s2b "&apos;") s with Some _ => true | None => false end
      then (b <- wr b it2 apos ;; translate_loop fuel b size (it + 6) (it2 + 1)) else
      if match after (s2b "&quot;") s with Some _ => true | None => false end
      then (b <- wr b it2 quot ;; translate_loop fuel b size (it + 6) (it2 + 1)) else
      if match after (s2b "&amp;") s with Some _ => true | None => false end
      then (b <- wr b it2 amp ;; translate_loop fuel b size (it + 5) (it2 + 1)) else
      if match after (s2b "&gt;") s with Some _ => true | None => false end
      then (b <- wr b it2 gt ;; translate_loop fuel b size (it + 4) (it2 + 1)) else
      if match after (s2b "&lt;") s with Some _ => true | None => false end
      then (b <- wr b it2 lt ;; translate_loop fuel b size (it + 4) (it2 + 1)) else
      b <- (if negb (it2 =? it) then (c <- rd b it ;; wr b it2 c) else Ok b) ;;
      translate_loop fuel b size (it + 1) (it2 + 1)
    else Ok (b, it2).
Proof.
  cbv zeta. cbn [translate_loop]. destruct (it <? size); [|reflexivity].
  rewrite ptr_at_app by exact Hi. cbn [bind].
  rewrite stream_cmp_lit by (try assumption; try (apply nul_free_lit; reflexivity); try discriminate; reflexivity).
  cbn [bind]. destruct (after (s2b "&apos;") s); [reflexivity|].
  rewrite stream_cmp_lit by (try assumption; try (apply nul_free_lit; reflexivity); try discriminate; reflexivity).
  cbn [bind]. destruct (after (s2b "&quot;") s); [reflexivity|].
  rewrite stream_cmp_lit by (try assumption; try (apply nul_free_lit; reflexivity); try discriminate; reflexivity).
  cbn [bind]. destruct (after (s2b "&amp;") s); [reflexivity|].
  rewrite stream_cmp_lit by (try assumption; try (apply nul_free_lit; reflexivity); try discriminate; reflexivity).
  cbn [bind]. destruct (after (s2b "&gt;") s); [reflexivity|].
  rewrite stream_cmp_lit by (try assumption; try (apply nul_free_lit; reflexivity); try discriminate; reflexivity).
  cbn [bind]. destruct (after (s2b "&lt;") s); reflexivity.
Qed.

(** one character: [done] is the text produced, [junk] what was consumed and not
    yet overwritten *)
Lemma translate_char fuel done junk c s t size :
  nul_free (echar c ++ s) ->
  Z.of_nat (length (done ++ junk)) < size ->
  exists junk', (length junk' = length junk + length (echar c) - 1)%nat /\
  translate_loop (S fuel) (done ++ junk ++ (echar c ++ s) ++ NUL :: t) size
    (Z.of_nat (length (done ++ junk))) (Z.of_nat (length done)) =
  translate_loop fuel ((done ++ [c]) ++ junk' ++ s ++ NUL :: t) size
    (Z.of_nat (length ((done ++ [c]) ++ junk'))) (Z.of_nat (length (done ++ [c]))).
Proof.
  intros Hs Hl.
  assert (W : forall x y, junk ++ echar c = x :: y ->
    wr (done ++ junk ++ (echar c ++ s) ++ NUL :: t) (Z.of_nat (length done)) c =
    Ok ((done ++ [c]) ++ y ++ s ++ NUL :: t)).
  { intros x y E. rewrite <- (app_assoc (echar c)), (app_assoc junk), E. cbn [app].
    rewrite wr_app by reflexivity. rewrite <- !app_assoc. reflexivity. }
  destruct (junk ++ echar c) as [|x y] eqn:Ej.
  { apply app_eq_nil in Ej. destruct Ej as [_ Ej]. unfold echar in Ej. destruct (ent c) eqn:E; [|discriminate].
    pose proof (ent_len _ _ E). rewrite Ej in H. cbn in H. lia. }
  pose proof (f_equal (@length ascii) Ej) as L. rewrite app_length in L. cbn [length] in L.
  exists y. split; [lia|].
  specialize (W x y eq_refl).
  assert (P1 : Z.of_nat (length (done ++ [c])) = Z.of_nat (length done) + 1) by (rewrite app_length; cbn; lia).
  assert (P2 : Z.of_nat (length ((done ++ [c]) ++ y)) = Z.of_nat (length (done ++ junk)) + Z.of_nat (length (echar c))).
  { rewrite !app_length. cbn [length]. lia. }
  rewrite P1, P2. clear P1 P2. rewrite app_assoc in W. rewrite app_assoc.
  rewrite (translate_step fuel (done ++ junk) (echar c ++ s) t) by (assumption || reflexivity).
  destruct (Z.ltb_spec (Z.of_nat (length (done ++ junk))) size) as [_|X]; [|lia].
  destruct (ent_cases c) as [E|D].
  - assert (Ec : echar c = [c]) by (unfold echar; rewrite E; reflexivity). rewrite Ec in *. cbn [app] in *.
    destruct (ent_none c E) as (_ & _ & Na & _).
    assert (A : forall v, match after ("&"%char :: v) (c :: s) with Some _ => true | None => false end = false).
    { intro v. cbn [after]. destruct (Ascii.eqb_spec "&" c) as [X|X]; [subst c; exfalso; apply Na; reflexivity|reflexivity]. }
    change (s2b "&apos;") with ("&"%char :: s2b "apos;"). change (s2b "&quot;") with ("&"%char :: s2b "quot;").
    change (s2b "&amp;") with ("&"%char :: s2b "amp;"). change (s2b "&gt;") with ("&"%char :: s2b "gt;").
    change (s2b "&lt;") with ("&"%char :: s2b "lt;"). rewrite !A. clear A.
    destruct (Z.eqb_spec (Z.of_nat (length done)) (Z.of_nat (length (done ++ junk)))) as [X|X]; cbn [negb].
    + rewrite app_length in X. destruct junk; [|cbn [length] in X; lia]. cbn [app] in Ej. injection Ej as _ <-.
      cbn [bind]. rewrite !app_nil_r. f_equal. rewrite <- app_assoc. reflexivity.
    + rewrite rd_app by reflexivity. cbn [bind]. rewrite W. cbn [bind]. reflexivity.
  - destruct D as [[-> E]|[[-> E]|[[-> E]|[[-> E]|[-> E]]]]].
    all: assert (Ec : echar _ = _) by (unfold echar; rewrite E; reflexivity).
    all: rewrite Ec in *.
    all: repeat match goal with |- context [after (s2b ?v) (s2b ?w ++ ?s)] =>
           let r := eval vm_compute in (after (s2b v) (s2b w)) in
           match r with
           | Some _ => rewrite (after_app (s2b v) s)
           | None => change (after (s2b v) (s2b w ++ s)) with (@None bytes)
           end end; cbv iota.
    all: rewrite W; cbn [bind]; reflexivity.
Qed.

Lemma translate_loop_ok : forall s fuel done junk t,
  nul_free s -> (length s < fuel)%nat ->
  exists junk', (length junk' = length junk + length (flat_map echar s) - length s)%nat /\
  translate_loop fuel (done ++ junk ++ flat_map echar s ++ NUL :: t)
    (Z.of_nat (length (done ++ junk ++ flat_map echar s)))
    (Z.of_nat (length (done ++ junk))) (Z.of_nat (length done)) =
  Ok ((done ++ s) ++ junk' ++ NUL :: t, Z.of_nat (length (done ++ s))).
Proof.
  induction s as [|c s IH]; intros fuel done junk t Hs Hf; (destruct fuel as [|fuel]; [cbn in Hf; lia|]).
  - exists junk. split; [cbn; lia|]. cbn [flat_map app]. rewrite !app_nil_r.
    cbn [translate_loop]. rewrite Z.ltb_irrefl. reflexivity.
  - cbn [flat_map]. assert (Hn : nul_free (echar c ++ flat_map echar s)) by exact (chars_nul_free (c :: s) Hs).
    apply nul_free_cons in Hs. destruct Hs as [Hc Hs].
    assert (Le : (1 <= length (echar c))%nat).
    { unfold echar. destruct (ent c) eqn:E; [pose proof (ent_len _ _ E); lia|cbn; lia]. }
    destruct (translate_char fuel done junk c (flat_map echar s) t
      (Z.of_nat (length (done ++ junk ++ echar c ++ flat_map echar s))) Hn) as (junk1 & L1 & E1).
    { rewrite !app_length. lia. }
    destruct (IH fuel (done ++ [c]) junk1 t Hs ltac:(cbn [length] in Hf; lia)) as (junk2 & L2 & E2).
    assert (Lc : (length s <= length (flat_map echar s))%nat).
    { rewrite <- esc_chars. apply (esc_len false (length s)). lia. }
    exists junk2. split.
    { rewrite app_length. cbn [length]. lia. }
    rewrite E1. replace (length (done ++ junk ++ echar c ++ flat_map echar s)) with
      (length ((done ++ [c]) ++ junk1 ++ flat_map echar s)) by (rewrite !app_length; cbn [length]; lia).
    rewrite E2. rewrite <- !app_assoc. reflexivity.
Qed.
