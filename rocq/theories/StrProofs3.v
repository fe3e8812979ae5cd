From Verif Require Import Prelude StrModel StrSpec StrProofs StrProofs2.
Open Scope Z_scope.

Local Arguments Z.of_nat : simpl never.
Local Arguments Z.add : simpl never.
Local Arguments Z.sub : simpl never.
Local Arguments Z.mul : simpl never.
Local Arguments Ascii.eqb : simpl never.

(** ** split *)
Lemma find_sep_ok s rs seps : nul_free s -> Forall nul_free seps ->
  find_sep (s ++ NUL :: rs) (map cs seps) =
  Ok (match cut_at seps s with Some (p, _) => Some (Z.of_nat (length p)) | None => None end).
Proof.
  intros Hs. induction seps as [|p seps IH]; intro H; [reflexivity|].
  inversion H; subst. cbn [map find_sep]. rewrite strlen_cs by assumption. cbn [bind].
  unfold cs at 1. rewrite memcmp_prefix by assumption. cbn [bind]. destruct p as [|x p].
  - apply IH; assumption.
  - cbn [cut_at]. destruct (after (x :: p) s); [reflexivity|apply IH; assumption].
Qed.

Lemma split_count_S fuel b seps index count :
  split_count (S fuel) b seps index count =
    c <- rd b index ;;
    if Ascii.eqb c NUL then Ok count
    else
      p <- ptr_at b index ;;
      o <- find_sep p seps ;;
      match o with
      | Some n => split_count fuel b seps (index + n - 1 + 1) (count + 1)
      | None => split_count fuel b seps (index + 1) count
      end.
Proof. reflexivity. Qed.

Lemma pieces_nonempty_cut seps s p r : cut_at seps s = Some (p, r) -> exists c s', s = c :: s'.
Proof.
  intro C. destruct (cut_at_Some _ _ _ _ C) as (_ & Hne & ->). destruct p; [contradiction|]. simpl. eauto.
Qed.

Lemma split_count_ok seps : Forall nul_free seps -> forall todo l, pieces seps todo l ->
  forall d rest count fuel, nul_free todo -> (length todo < fuel)%nat ->
  split_count fuel (d ++ todo ++ NUL :: rest) (map cs seps) (Z.of_nat (length d)) count
  = Ok (count + (Z.of_nat (length l) - 1)).
Proof.
  intros Hseps todo l P. induction P as [|s p r l C P IH|c s x l C P IH]; intros d rest count fuel Hf Hfuel;
    destruct fuel as [|fuel]; try lia; rewrite split_count_S.
  - simpl app. rewrite rd_app by reflexivity. cbn [bind]. rewrite Ascii.eqb_refl. f_equal. simpl. lia.
  - destruct (pieces_nonempty_cut _ _ _ _ C) as (c & s' & Es).
    pose proof (cut_at_Some _ _ _ _ C) as (Hp & Hne & Es2).
    assert (Hc : Ascii.eqb c NUL = false) by (rewrite Es in Hf; apply nul_free_cons in Hf; tauto).
    assert (R : rd (d ++ s ++ NUL :: rest) (Z.of_nat (length d)) = Ok c) by (rewrite Es; apply rd_app; reflexivity).
    rewrite R. cbn [bind]. rewrite Hc. rewrite ptr_at_app by reflexivity. cbn [bind].
    rewrite find_sep_ok by assumption. rewrite C. cbn [bind].
    specialize (IH (d ++ p) rest (count + 1) fuel).
    rewrite app_length in IH.
    replace (Z.of_nat (length d) + Z.of_nat (length p) - 1 + 1) with (Z.of_nat (length d + length p)) by lia.
    replace (d ++ s ++ NUL :: rest) with ((d ++ p) ++ r ++ NUL :: rest) by (rewrite Es2, <- !app_assoc; reflexivity).
    rewrite IH.
    + f_equal. simpl. lia.
    + rewrite Es2 in Hf. apply nul_free_app in Hf; tauto.
    + rewrite Es2, app_length in Hfuel. destruct p; [contradiction|simpl in Hfuel; lia].
  - assert (Hc : Ascii.eqb c NUL = false) by (apply nul_free_cons in Hf; tauto).
    simpl app. rewrite rd_app by reflexivity. cbn [bind]. rewrite Hc.
    rewrite ptr_at_app by reflexivity. cbn [bind].
    change (c :: s ++ NUL :: rest) with ((c :: s) ++ NUL :: rest).
    rewrite find_sep_ok by assumption. rewrite C. cbn [bind].
    specialize (IH (d ++ [c]) rest count fuel). rewrite app_length in IH. simpl length in *.
    replace (Z.of_nat (length d) + 1) with (Z.of_nat (length d + 1)) by lia.
    rewrite <- app_assoc in IH. simpl app in IH. simpl app. rewrite IH.
    + reflexivity.
    + apply nul_free_cons in Hf; tauto.
    + lia.
Qed.

Lemma split_copy_S fuel b seps res count index prev :
  split_copy (S fuel) b seps res count index prev =
    c <- rd b index ;;
    if Ascii.eqb c NUL then
      if index =? prev then Ok res
      else (piece <- mem_sub b prev (index - prev) ;; of_option (set_slot res count piece))
    else
      p <- ptr_at b index ;;
      o <- find_sep p seps ;;
      match o with
      | None => split_copy fuel b seps res count (index + 1) prev
      | Some n =>
        piece <- mem_sub b prev (index - prev) ;;
        res <- of_option (set_slot res count piece) ;;
        d <- rd b (index + n) ;;
        if Ascii.eqb d NUL then of_option (set_slot res (S count) [])
        else split_copy fuel b seps res (S count) (index + n - 1 + 1) (index + n)
      end.
Proof. reflexivity. Qed.

Lemma set_slot_ok done k v : set_slot (map Some done ++ None :: repeat None k) (length done) v
  = Some (map Some (done ++ [v]) ++ repeat None k).
Proof. induction done as [|x done IH]; simpl; [reflexivity|]. simpl in IH. rewrite IH. reflexivity. Qed.

Lemma split_copy_ok seps : Forall nul_free seps -> forall todo l, pieces seps todo l ->
  forall x m pre cur rest done k fuel, l = x :: m -> nul_free todo -> (length todo < fuel)%nat ->
  (cur <> [] \/ todo <> []) -> (length m <= k)%nat ->
  split_copy fuel (pre ++ cur ++ todo ++ NUL :: rest) (map cs seps)
     (map Some done ++ repeat None (S k)) (length done)
     (Z.of_nat (length pre + length cur)) (Z.of_nat (length pre))
  = Ok (map Some (done ++ (cur ++ x) :: m) ++ repeat None (k - length m)).
Proof.
  intros Hseps todo l P. induction P as [|s p r l C P IH|c s y l C P IH];
    intros x m pre cur rest done k fuel El Hf Hfuel Hne Hk;
    destruct fuel as [|fuel]; try lia; rewrite split_copy_S; injection El as <- <-.
  - rewrite (app_assoc pre cur). simpl app.
    rewrite rd_app by (rewrite app_length; lia). cbn [bind]. rewrite Ascii.eqb_refl.
    destruct Hne as [Hne|Hne]; [|contradiction].
    destruct (Z.eqb_spec (Z.of_nat (length pre + length cur)) (Z.of_nat (length pre))) as [E|E].
    { destruct cur; [contradiction|simpl in E; lia]. }
    rewrite <- app_assoc. rewrite mem_sub_app by lia. cbn [bind]. cbn [repeat]; rewrite set_slot_ok. simpl.
    rewrite app_nil_r. replace (k - 0)%nat with k by lia. reflexivity.
  - destruct (pieces_nonempty_cut _ _ _ _ C) as (c & s' & Es).
    pose proof (cut_at_Some _ _ _ _ C) as (Hp & Hpne & Es2).
    assert (Hc : Ascii.eqb c NUL = false) by (rewrite Es in Hf; apply nul_free_cons in Hf; tauto).
    assert (R : rd (pre ++ cur ++ s ++ NUL :: rest) (Z.of_nat (length pre + length cur)) = Ok c).
    { rewrite Es, (app_assoc pre cur). apply rd_app. rewrite app_length; lia. }
    rewrite R. cbn [bind]. rewrite Hc.
    assert (PT : ptr_at (pre ++ cur ++ s ++ NUL :: rest) (Z.of_nat (length pre + length cur)) = Ok (s ++ NUL :: rest)).
    { rewrite (app_assoc pre cur). apply ptr_at_app. rewrite app_length; lia. }
    rewrite PT. cbn [bind]. rewrite find_sep_ok by assumption. rewrite C. cbn [bind].
    rewrite mem_sub_app by lia. cbn [bind]. cbn [repeat]; rewrite set_slot_ok. cbn [of_option bind].
    assert (Lr : (1 <= length l)%nat) by (pose proof (pieces_cons _ _ _ P); destruct l; [contradiction|simpl; lia]).
    assert (Hr : nul_free r) by (rewrite Es2 in Hf; apply nul_free_app in Hf; tauto).
    destruct k as [|k]; [lia|]. rewrite app_nil_r.
    destruct r as [|c2 r].
    + assert (l = [[]]) by (apply (pieces_fun _ _ [[]]) in P; [assumption|constructor]). subst l.
      assert (R2 : rd (pre ++ cur ++ s ++ NUL :: rest) (Z.of_nat (length pre + length cur) + Z.of_nat (length p)) = Ok NUL).
      { replace (pre ++ cur ++ s ++ NUL :: rest) with ((pre ++ cur ++ p) ++ NUL :: rest)
          by (rewrite Es2, app_nil_r, <- !app_assoc; reflexivity).
        apply rd_app. rewrite !app_length; lia. }
      rewrite R2. cbn [bind]. rewrite Ascii.eqb_refl.
      replace (S (length done)) with (length (done ++ [cur])) by (rewrite app_length; simpl; lia).
      cbn [repeat]; rewrite set_slot_ok. cbn [of_option]. rewrite <- app_assoc. simpl.
      replace (k - 0)%nat with k by lia. reflexivity.
    + assert (R2 : rd (pre ++ cur ++ s ++ NUL :: rest) (Z.of_nat (length pre + length cur) + Z.of_nat (length p)) = Ok c2).
      { replace (pre ++ cur ++ s ++ NUL :: rest) with ((pre ++ cur ++ p) ++ c2 :: (r ++ NUL :: rest))
          by (rewrite Es2, <- !app_assoc; reflexivity).
        apply rd_app. rewrite !app_length; lia. }
      rewrite R2. cbn [bind].
      assert (Hc2 : Ascii.eqb c2 NUL = false) by (apply nul_free_cons in Hr; tauto). rewrite Hc2.
      destruct l as [|x' m']; [simpl in Lr; lia|].
      specialize (IH x' m' (pre ++ cur ++ p) [] rest (done ++ [cur]) k fuel eq_refl Hr).
      simpl app in IH.
      replace (Z.of_nat (length (pre ++ cur ++ p) + length (@nil ascii)))
         with (Z.of_nat (length pre + length cur) + Z.of_nat (length p) - 1 + 1) in IH
         by (rewrite !app_length; simpl; lia).
      replace (Z.of_nat (length (pre ++ cur ++ p)))
         with (Z.of_nat (length pre + length cur) + Z.of_nat (length p)) in IH
         by (rewrite !app_length; lia).
      replace (length (done ++ [cur])) with (S (length done)) in IH by (rewrite app_length; simpl; lia).
      replace ((pre ++ cur ++ p) ++ c2 :: r ++ NUL :: rest) with (pre ++ cur ++ s ++ NUL :: rest) in IH
        by (rewrite Es2, <- !app_assoc; reflexivity).
      etransitivity; [apply IH|rewrite <- app_assoc; reflexivity].
      * rewrite Es2, app_length in Hfuel. destruct p; [contradiction|simpl in *; lia].
      * right; discriminate.
      * simpl in Hk. lia.
  - assert (Hc : Ascii.eqb c NUL = false) by (apply nul_free_cons in Hf; tauto).
    assert (R : rd (pre ++ cur ++ (c :: s) ++ NUL :: rest) (Z.of_nat (length pre + length cur)) = Ok c).
    { rewrite (app_assoc pre cur). simpl app. apply rd_app. rewrite app_length; lia. }
    rewrite R. cbn [bind]. rewrite Hc.
    assert (PT : ptr_at (pre ++ cur ++ (c :: s) ++ NUL :: rest) (Z.of_nat (length pre + length cur)) = Ok ((c :: s) ++ NUL :: rest)).
    { rewrite (app_assoc pre cur). apply ptr_at_app. rewrite app_length; lia. }
    rewrite PT. cbn [bind]. rewrite find_sep_ok by assumption. rewrite C. cbn [bind].
    specialize (IH y l pre (cur ++ [c]) rest done k fuel eq_refl).
    rewrite <- !app_assoc in IH. simpl app in IH. simpl app.
    replace (Z.of_nat (length pre + length cur) + 1) with (Z.of_nat (length pre + length (cur ++ [c])))
      by (rewrite app_length; simpl; lia).
    etransitivity; [apply IH|reflexivity].
    + apply nul_free_cons in Hf; tauto.
    + simpl in Hfuel. lia.
    + left. destruct cur; discriminate.
    + exact Hk.
Qed.

Lemma strv_ok l k : strv (map Some l ++ None :: repeat None k) = Ok l.
Proof. induction l as [|x l IH]; simpl; [reflexivity|]. rewrite IH. reflexivity. Qed.

Lemma split_ok b s seps l : holds b s -> s <> [] -> Forall nul_free seps -> pieces seps s l ->
  (a <- stream_split b (map cs seps) ;; strv a) = Ok l.
Proof.
  intros [Hs [rest ->]] Hne Hseps P. unfold stream_split.
  pose proof (split_count_ok seps Hseps s l P [] rest 0 (S (length (s ++ NUL :: rest))) Hs) as E1.
  simpl app in E1. change (Z.of_nat (length (@nil ascii))) with 0 in E1.
  rewrite E1 by (rewrite app_length; lia). cbn [bind].
  destruct l as [|x m]; [exfalso; eapply pieces_cons; eauto|].
  replace (Z.to_nat (0 + (Z.of_nat (length (x :: m)) - 1)) + 2)%nat with (S (S (length m))) by (simpl length; lia).
  assert (E2 : split_copy (S (length (s ++ NUL :: rest))) (s ++ NUL :: rest) (map cs seps)
                 (repeat None (S (S (length m)))) 0 0 0 = Ok (map Some (x :: m) ++ repeat None (S (length m) - length m))).
  { apply (split_copy_ok seps Hseps s (x :: m) P x m [] [] rest [] (S (length m))); auto.
    rewrite app_length; lia. }
  rewrite E2. cbn [bind]. replace (S (length m) - length m)%nat with 1%nat by lia. apply (strv_ok (x :: m) 0).
Qed.
(** splitting the empty string gives no string at all *)
Lemma split_empty rest seps : (a <- stream_split (NUL :: rest) seps ;; strv a) = Ok [].
Proof. reflexivity. Qed.

Lemma clean_split_ok l : clean_split l = filter (fun s => negb (bytes_eqb s [])) l.
Proof. induction l as [|s l IH]; simpl; [reflexivity|]. destruct s; simpl; rewrite IH; reflexivity. Qed.

(** ** join *)
Lemma joined_len sep l : l <> [] -> Z.of_nat (length (joined sep l)) =
  fold_right (fun s n => Z.of_nat (length s) + n) 0 l + Z.of_nat (length sep) * (Z.of_nat (length l) - 1).
Proof.
  induction l as [|s l IH]; [contradiction|]. intros _. destruct l as [|s2 l].
  - simpl. lia.
  - rewrite joined_cons, !app_length by discriminate. cbn [fold_right]. cbn [fold_right] in IH.
    specialize (IH ltac:(discriminate)). simpl length in *. nia.
Qed.
Lemma memcpy_fresh acc k s : (length s <= k)%nat ->
  memcpy_to (acc ++ repeat NUL k) (Z.of_nat (length acc)) s = Ok ((acc ++ s) ++ repeat NUL (k - length s)).
Proof.
  intro H. replace (repeat NUL k) with (repeat NUL (length s) ++ repeat NUL (k - length s)).
  - rewrite memcpy_app, <- app_assoc by (auto; apply repeat_length). reflexivity.
  - rewrite <- repeat_app. f_equal. lia.
Qed.
Lemma join_loop_ok sep l : forall (ns : bool) acc k,
  let out := if ns then match l with [] => [] | _ => sep ++ joined sep l end else joined sep l in
  (length out <= k)%nat ->
  join_loop l sep ns (acc ++ repeat NUL k) (Z.of_nat (length acc)) = Ok ((acc ++ out) ++ repeat NUL (k - length out)).
Proof.
  induction l as [|s l IH]; intros ns acc k out H; unfold out in *; clear out.
  - simpl. destruct ns; simpl; rewrite app_nil_r, Nat.sub_0_r; reflexivity.
  - cbn [join_loop].
    assert (J : joined sep (s :: l) = s ++ match l with [] => [] | _ => sep ++ joined sep l end).
    { destruct l; simpl; [rewrite app_nil_r; reflexivity|reflexivity]. }
    rewrite J in *. clear J. set (tail := match l with [] => [] | _ => sep ++ joined sep l end) in *.
    destruct ns.
    + rewrite !app_length in H. rewrite memcpy_fresh by lia. cbn [bind].
      replace (Z.of_nat (length acc) + Z.of_nat (length sep)) with (Z.of_nat (length (acc ++ sep))) by (rewrite app_length; lia).
      rewrite memcpy_fresh by lia. cbn [bind].
      replace (Z.of_nat (length (acc ++ sep)) + Z.of_nat (length s)) with (Z.of_nat (length ((acc ++ sep) ++ s))) by (rewrite app_length; lia).
      specialize (IH true ((acc ++ sep) ++ s) (k - length sep - length s)%nat). cbv zeta in IH. fold tail in IH.
      rewrite IH by lia. rewrite <- !app_assoc. do 5 f_equal. rewrite !app_length. f_equal. lia.
    + rewrite !app_length in H. cbn [bind]. rewrite memcpy_fresh by lia. cbn [bind].
      replace (Z.of_nat (length acc) + Z.of_nat (length s)) with (Z.of_nat (length (acc ++ s))) by (rewrite app_length; lia).
      specialize (IH true (acc ++ s) (k - length s)%nat). cbv zeta in IH. fold tail in IH.
      rewrite IH by lia. rewrite <- !app_assoc. do 4 f_equal. rewrite !app_length. f_equal. lia.
Qed.
Lemma join_ok l sep : l <> [] -> stream_join l sep = Ok (Some (cs (joined sep l))).
Proof.
  intro Hl. unfold stream_join. destruct l as [|s l]; [contradiction|]. destruct l as [|s2 l]; [reflexivity|].
  remember (s :: s2 :: l) as ll eqn:E.
  rewrite <- joined_len by (subst; discriminate).
  replace (Z.to_nat (Z.of_nat (length (joined sep ll)) + 1)) with (S (length (joined sep ll))) by lia.
  pose proof (join_loop_ok sep ll false [] (S (length (joined sep ll)))) as J. cbn [app] in J. cbv zeta in J.
  change (Z.of_nat (length (@nil ascii))) with 0 in J. rewrite J by lia. cbn [bind].
  replace (S (length (joined sep ll)) - length (joined sep ll))%nat with 1%nat by lia. reflexivity.
Qed.

(** ** replace *)
Lemma replace_count_S fuel src str slen tlen it count :
  replace_count (S fuel) src str slen tlen it count =
    if it + tlen - 1 <? slen then
      p <- ptr_at src it ;;
      m <- axl_memcmp p str tlen ;;
      if (m : bool) then replace_count fuel src str slen tlen (it + tlen) (count + 1)
      else replace_count fuel src str slen tlen (it + 1) count
    else Ok count.
Proof. reflexivity. Qed.
Lemma replace_count_ok t : nul_free t -> forall todo l, pieces [t] todo l ->
  forall d rest count fuel, nul_free todo -> (length todo + 1 < fuel)%nat ->
  replace_count fuel (d ++ todo ++ NUL :: rest) (cs t) (Z.of_nat (length d + length todo))
     (Z.of_nat (length t)) (Z.of_nat (length d)) count
  = Ok (count + (Z.of_nat (length l) - 1)).
Proof.
  intros Ht todo l P. induction P as [|s p r l C P IH|c s x l C P IH]; intros d rest count fuel Hf Hfuel;
    destruct fuel as [|fuel]; try lia; rewrite replace_count_S.
  - destruct (Z.ltb_spec (Z.of_nat (length d) + Z.of_nat (length t) - 1) (Z.of_nat (length d + length (@nil ascii)))) as [L|L].
    + (* empty pattern, at the terminator *)
      simpl length in L. destruct t; [|simpl in L; lia].
      rewrite ptr_at_app by reflexivity. cbn [bind]. simpl app.
      unfold axl_memcmp. simpl memcmp_loop. cbn [bind].
      destruct fuel as [|fuel]; [simpl in Hfuel; lia|]. rewrite replace_count_S.
      destruct (Z.ltb_spec (Z.of_nat (length d) + 1 + Z.of_nat (length (@nil ascii)) - 1) (Z.of_nat (length d + length (@nil ascii)))) as [L2|L2];
        [simpl in L2; lia|]. f_equal. simpl. lia.
    + f_equal. simpl. lia.
  - pose proof (cut_at_Some _ _ _ _ C) as (Hp & Hne & Es). destruct Hp as [->|[]].
    assert (Ls : length s = (length p + length r)%nat) by (subst s; apply app_length).
    destruct (Z.ltb_spec (Z.of_nat (length d) + Z.of_nat (length p) - 1) (Z.of_nat (length d + length s))) as [L|L]; [|lia].
    rewrite ptr_at_app by reflexivity. cbn [bind].
    unfold cs at 1. rewrite memcmp_cut, C by assumption. cbn [bind].
    specialize (IH (d ++ p) rest (count + 1) fuel).
    replace (Z.of_nat (length d) + Z.of_nat (length p)) with (Z.of_nat (length (d ++ p))) by (rewrite app_length; lia).
    replace (d ++ s ++ NUL :: rest) with ((d ++ p) ++ r ++ NUL :: rest) by (rewrite Es, <- !app_assoc; reflexivity).
    replace (length d + length s)%nat with (length (d ++ p) + length r)%nat by (rewrite app_length; lia).
    rewrite IH.
    + f_equal. simpl. lia.
    + rewrite Es in Hf. apply nul_free_app in Hf; tauto.
    + destruct p; [contradiction|simpl in *; lia].
  - destruct (Z.ltb_spec (Z.of_nat (length d) + Z.of_nat (length t) - 1) (Z.of_nat (length d + length (c :: s)))) as [L|L].
    + rewrite ptr_at_app by reflexivity. cbn [bind].
      unfold cs at 1. rewrite memcmp_cut, C by assumption. cbn [bind].
      specialize (IH (d ++ [c]) rest count fuel).
      replace (Z.of_nat (length d) + 1) with (Z.of_nat (length (d ++ [c]))) by (rewrite app_length; simpl; lia).
      replace (length d + length (c :: s))%nat with (length (d ++ [c]) + length s)%nat by (rewrite app_length; simpl; lia).
      rewrite <- app_assoc in IH. cbn [app] in IH. simpl app at 2. rewrite IH.
      * reflexivity.
      * apply nul_free_cons in Hf; tauto.
      * simpl in Hfuel; lia.
    + assert (Hsh : (x :: l) = [s]) by (apply (pieces_short t); [simpl in L; lia|assumption]).
      inversion Hsh; subst. f_equal. simpl. lia.
Qed.

Lemma replace_copy_S fuel src str rep out slen tlen rlen it it2 :
  replace_copy (S fuel) src str rep out slen tlen rlen it it2 =
    if it <? slen then
      m <- (if it + tlen - 1 <? slen then (p <- ptr_at src it ;; axl_memcmp p str tlen) else Ok false) ;;
      if (m : bool) then
        r <- mem_sub rep 0 rlen ;;
        out <- memcpy_to out it2 r ;;
        replace_copy fuel src str rep out slen tlen rlen (it + tlen) (it2 + rlen)
      else
        c <- rd src it ;;
        out <- wr out it2 c ;;
        replace_copy fuel src str rep out slen tlen rlen (it + 1) (it2 + 1)
    else Ok out.
Proof. reflexivity. Qed.
Lemma replace_copy_ok t rep : nul_free t -> forall todo l, pieces [t] todo l ->
  forall d rest acc k fuel, nul_free todo -> (length todo < fuel)%nat -> (length (joined rep l) <= k)%nat ->
  replace_copy fuel (d ++ todo ++ NUL :: rest) (cs t) (cs rep) (acc ++ repeat NUL k)
     (Z.of_nat (length d + length todo)) (Z.of_nat (length t)) (Z.of_nat (length rep))
     (Z.of_nat (length d)) (Z.of_nat (length acc))
  = Ok ((acc ++ joined rep l) ++ repeat NUL (k - length (joined rep l))).
Proof.
  intros Ht todo l P. induction P as [|s p r l C P IH|c s x l C P IH]; intros d rest acc k fuel Hf Hfuel Hk;
    destruct fuel as [|fuel]; try lia; rewrite replace_copy_S.
  - destruct (Z.ltb_spec (Z.of_nat (length d)) (Z.of_nat (length d + length (@nil ascii)))) as [L|L]; [simpl in L; lia|].
    simpl. rewrite app_nil_r, Nat.sub_0_r. reflexivity.
  - pose proof (cut_at_Some _ _ _ _ C) as (Hp & Hne & Es). destruct Hp as [->|[]].
    assert (Ls : length s = (length p + length r)%nat) by (subst s; apply app_length).
    assert (0 < length p)%nat by (destruct p; [contradiction|simpl; lia]).
    destruct (Z.ltb_spec (Z.of_nat (length d)) (Z.of_nat (length d + length s))); [|lia].
    destruct (Z.ltb_spec (Z.of_nat (length d) + Z.of_nat (length p) - 1) (Z.of_nat (length d + length s))); [|lia].
    rewrite ptr_at_app by reflexivity. cbn [bind].
    unfold cs at 1. rewrite memcmp_cut, C by assumption. cbn [bind].
    unfold cs at 1. pose proof (mem_sub_app [] rep [NUL] 0 (Z.of_nat (length rep)) eq_refl eq_refl) as MS.
    cbn [app] in MS. rewrite MS. cbn [bind].
    rewrite joined_cons in * by (eapply pieces_cons; eauto). cbn [app] in *. rewrite app_length in Hk.
    rewrite memcpy_fresh by lia. cbn [bind].
    specialize (IH (d ++ p) rest (acc ++ rep) (k - length rep)%nat fuel).
    replace (Z.of_nat (length d) + Z.of_nat (length p)) with (Z.of_nat (length (d ++ p))) by (rewrite app_length; lia).
    replace (Z.of_nat (length acc) + Z.of_nat (length rep)) with (Z.of_nat (length (acc ++ rep))) by (rewrite app_length; lia).
    replace (d ++ s ++ NUL :: rest) with ((d ++ p) ++ r ++ NUL :: rest) by (rewrite Es, <- !app_assoc; reflexivity).
    replace (length d + length s)%nat with (length (d ++ p) + length r)%nat by (rewrite app_length; lia).
    rewrite IH.
    + rewrite <- !app_assoc. do 4 f_equal. rewrite app_length. f_equal. lia.
    + rewrite Es in Hf. apply nul_free_app in Hf; tauto.
    + lia.
    + lia.
  - destruct (Z.ltb_spec (Z.of_nat (length d)) (Z.of_nat (length d + length (c :: s)))) as [L|L]; [|simpl in L; lia].
    replace (if Z.of_nat (length d) + Z.of_nat (length t) - 1 <? Z.of_nat (length d + length (c :: s))
             then p <- ptr_at (d ++ (c :: s) ++ NUL :: rest) (Z.of_nat (length d)) ;; axl_memcmp p (cs t) (Z.of_nat (length t))
             else Ok false) with (Ok false).
    2:{ destruct (Z.ltb_spec (Z.of_nat (length d) + Z.of_nat (length t) - 1) (Z.of_nat (length d + length (c :: s)))); [|reflexivity].
        rewrite ptr_at_app by reflexivity. cbn [bind]. unfold cs. rewrite memcmp_cut, C by assumption. reflexivity. }
    cbn [bind]. simpl app at 1. rewrite rd_app by reflexivity. cbn [bind].
    replace (joined rep ((c :: x) :: l)) with (c :: joined rep (x :: l)) in * by (symmetry; apply joined_head).
    cbn [length] in Hk. destruct k as [|k]; [lia|]. cbn [repeat]. rewrite wr_app by reflexivity. cbn [bind].
    specialize (IH (d ++ [c]) rest (acc ++ [c]) k fuel).
    replace (Z.of_nat (length d) + 1) with (Z.of_nat (length (d ++ [c]))) by (rewrite app_length; simpl; lia).
    replace (Z.of_nat (length acc) + 1) with (Z.of_nat (length (acc ++ [c]))) by (rewrite app_length; simpl; lia).
    replace (length d + length (c :: s))%nat with (length (d ++ [c]) + length s)%nat by (rewrite app_length; simpl; lia).
    rewrite <- !app_assoc in IH. cbn [app] in IH. simpl app. rewrite IH.
    + simpl length. rewrite <- !app_assoc. reflexivity.
    + apply nul_free_cons in Hf; tauto.
    + simpl in Hfuel; lia.
    + lia.
Qed.

Lemma len_or_ok b s n : holds b s -> n = -1 \/ n = Z.of_nat (length s) ->
  len_or_strlen b n = Ok (Z.of_nat (length s)).
Proof.
  intros [Hs [rest ->]] [->| ->]; unfold len_or_strlen.
  - simpl. apply strlen_ok; assumption.
  - destruct (Z.eqb_spec (Z.of_nat (length s)) (-1)); [lia|reflexivity].
Qed.
Lemma holds_cs s : nul_free s -> holds (cs s) s.
Proof. intro H. split; [exact H|exists []; reflexivity]. Qed.

Lemma replace_ok b s t rep l sl tl rl : holds b s -> nul_free t -> nul_free rep -> pieces [t] s l ->
  sl = -1 \/ sl = Z.of_nat (length s) -> tl = -1 \/ tl = Z.of_nat (length t) ->
  rl = -1 \/ rl = Z.of_nat (length rep) ->
  exists b', stream_replace b sl (cs t) tl (cs rep) rl = Ok (b', Z.of_nat (length (joined rep l))) /\
    holds b' (joined rep l) /\ (length l <> 1%nat -> b' = cs (joined rep l)).
Proof.
  intros Hb Ht Hrep P H1 H2 H3. unfold stream_replace.
  rewrite (len_or_ok _ _ _ Hb H1), (len_or_ok _ _ _ (holds_cs t Ht) H2), (len_or_ok _ _ _ (holds_cs rep Hrep) H3).
  cbn [bind]. pose proof Hb as [Hs [rest ->]].
  pose proof (replace_count_ok t Ht s l P [] rest 0 (S (S (length (s ++ NUL :: rest)))) Hs) as E1.
  cbn [app] in E1. change (Z.of_nat (length (@nil ascii))) with 0 in E1. change (length (@nil ascii) + length s)%nat with (length s) in E1.
  rewrite E1 by (rewrite app_length; lia). cbn [bind]. rewrite Z.add_0_l.
  pose proof (pieces_cons _ _ _ P) as Hl.
  assert (Ln : (1 <= length l)%nat) by (destruct l; [contradiction|simpl; lia]).
  destruct (Z.eqb_spec (Z.of_nat (length l) - 1) 0) as [E|E].
  - destruct l as [|x l]; [contradiction|]. destruct l; [|simpl in E; lia].
    pose proof (pieces_joined _ _ _ P) as J. simpl in J. subst x. simpl.
    exists (s ++ NUL :: rest). split; [reflexivity|]. split; [exact Hb|]. intro; contradiction.
  - pose proof (joined_len t l Hl) as J1. rewrite (pieces_joined _ _ _ P) in J1.
    pose proof (joined_len rep l Hl) as J2.
    set (S0 := fold_right (fun (s0 : list ascii) n => Z.of_nat (length s0) + n) 0 l) in *.
    replace (Z.of_nat (length s) - Z.of_nat (length t) * (Z.of_nat (length l) - 1) +
             Z.of_nat (length rep) * (Z.of_nat (length l) - 1)) with (Z.of_nat (length (joined rep l))) by lia.
    replace (Z.to_nat (Z.of_nat (length (joined rep l)) + 1)) with (S (length (joined rep l))) by lia.
    pose proof (replace_copy_ok t rep Ht s l P [] rest [] (S (length (joined rep l))) (S (S (length (s ++ NUL :: rest)))) Hs) as E2.
    cbn [app] in E2. change (Z.of_nat (length (@nil ascii))) with 0 in E2. change (length (@nil ascii) + length s)%nat with (length s) in E2.
    rewrite E2 by (try rewrite app_length; lia). cbn [bind].
    replace (S (length (joined rep l)) - length (joined rep l))%nat with 1%nat by lia.
    assert (nul_free (joined rep l)).
    { assert (F : Forall nul_free l).
      { clear - P Hs. induction P as [|s p r l C P IH|c s x l C P IH].
        - constructor; [exact nul_free_nil|constructor].
        - constructor; [exact nul_free_nil|]. apply IH. apply cut_at_Some in C. destruct C as (_ & _ & ->).
          apply nul_free_app in Hs; tauto.
        - apply nul_free_cons in Hs. destruct Hs as [Hc Hs]. specialize (IH Hs). inversion IH; subst.
          constructor; [|assumption]. apply nul_free_cons. auto. }
      clear - F Hrep. induction F as [|x l Hx F IH]; [exact nul_free_nil|]. destruct l as [|y l]; [exact Hx|].
      rewrite joined_cons by discriminate. rewrite !nul_free_app. auto. }
    exists (joined rep l ++ [NUL]). split; [reflexivity|]. split; [apply holds_cs; assumption|]. intro; reflexivity.
Qed.

(** ** concat, case conversion *)
Lemma concat_ok a s b t : holds a s -> holds b t -> stream_concat a b = Ok (cs (s ++ t)).
Proof.
  intros [Hs [ra ->]] [Ht [rb ->]]. unfold stream_concat. rewrite !strlen_ok by assumption. cbn [bind].
  pose proof (mem_sub_app [] s (NUL :: ra) 0 _ eq_refl eq_refl) as M1. cbn [app] in M1. rewrite M1. cbn [bind].
  pose proof (memcpy_fresh [] (Z.to_nat (Z.of_nat (length s) + Z.of_nat (length t) + 1)) s) as C1. cbn [app] in C1.
  change (Z.of_nat (length (@nil ascii))) with 0 in C1. rewrite C1 by lia. cbn [bind].
  pose proof (mem_sub_app [] t (NUL :: rb) 0 _ eq_refl eq_refl) as M2. cbn [app] in M2. rewrite M2. cbn [bind].
  rewrite memcpy_fresh by lia. unfold cs.
  replace (Z.to_nat (Z.of_nat (length s) + Z.of_nat (length t) + 1) - length s - length t)%nat with 1%nat by lia.
  reflexivity.
Qed.
Lemma common_to_ok f s rest : nul_free s -> common_to f (s ++ NUL :: rest) = Ok (map f s ++ NUL :: rest).
Proof.
  induction s as [|c s IH]; intro H; [reflexivity|]. apply nul_free_cons in H. destruct H as [Hc H].
  simpl. rewrite Hc, (IH H). reflexivity.
Qed.
