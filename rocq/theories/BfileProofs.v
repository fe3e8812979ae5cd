(** Reading a file that is converted. *)
From Coq Require Import NArith ZArith Lia.
From Verif Require Import Prelude Arr StrModel StrProofs StreamModel BabelModel BabelSpec BabelExec BabelProofs2 BdocModel BfileSpec.
Open Scope Z_scope.
Open Scope list_scope.

Lemma lp k : sane k -> length (pending k) = k_last k.
Proof. intros H. apply firstn_length_le, H. Qed.
Lemma written_long t c : full t -> (1 <= length (written t c) <= 6)%nat.
Proof. intros F. destruct (full_entry t c F) as (buf & _ & W & Bf). rewrite W, map_length. lia. Qed.
Lemma transcode_none t l : full t -> transcode t l = [] -> l = [].
Proof.
  intros F. destruct l as [|c l]; trivial. rewrite transcode_cons. pose proof (written_long t c F) as W. intros H.
  destruct (written t c); [cbn in *; lia|discriminate].
Qed.
Lemma memcpy_ok b i l : 0 <= i -> i + Z.of_nat (length l) <= Z.of_nat (length b) ->
  memcpy_to b i l = Ok (firstn (Z.to_nat i) b ++ l ++ skipn (Z.to_nat i + length l) b).
Proof.
  intros H1 H2. unfold memcpy_to. destruct (Z.ltb_spec i 0); [lia|]. cbn [orb].
  destruct (Z.ltb_spec (Z.of_nat (length b)) (i + Z.of_nat (length l))); [lia|reflexivity].
Qed.
Lemma ptr_ok b i : 0 <= i <= Z.of_nat (length b) -> ptr_at b i = Ok (skipn (Z.to_nat i) b).
Proof. intros H. unfold ptr_at. destruct (Z.ltb_spec i 0); [lia|]. cbn [orb]. destruct (Z.ltb_spec (Z.of_nat (length b)) i); [lia|reflexivity]. Qed.

(** what one call brings *)
Definition left_of (file : option bytes) : bytes := match file with Some f => f | None => [] end.
Record brought (t : table) (k : decoder) (file : option bytes) (e : bool) (b : bytes) (bufsize size : Z)
  (k' : decoder) (file' : option bytes) (e' : bool) (b' : bytes) (size' : Z) (D : bytes) : Prop := Brought {
  br_sane : sane k';
  br_temp : length (k_temp k') = length (k_temp k);
  br_len : length b' = length b;
  br_size : size' = size + Z.of_nat (length D);
  br_room : size' <= bufsize;
  br_bytes : firstn (Z.to_nat size') b' = firstn (Z.to_nat size) b ++ D;
  br_flow : exists read, pending k ++ left_of file = read ++ pending k' ++ left_of file' /\ D = transcode t read;
  br_end : file' = None -> k_last k' = O;
  br_flag : e' = true -> e = true \/ size = bufsize \/ exists c, In c (pending k ++ left_of file) /\ (2 <= length (written t c))%nat;
  br_more : 6 <= bufsize - size -> file' = None \/ D <> []
}.
Lemma loop_S fuel t k expand file b bufsize size op : decode_loop (S fuel) t k expand file b bufsize size op =
  (
    '(k, expand, b, size, op, ok) <-
      (if (0 <? k_last k)%nat then
         out <- ptr_at b size ;;
         r <- stream_decode t k out (Z.to_nat (bufsize - size)) ;;
         match r with
         | None => Ok (k, expand, b, size, op, false)
         | Some (k, out, decoded) =>
           let op := if (k_last k =? 0)%nat then 1 else 2 in
           Ok (k, if (op =? 2) && (decoded =? 0)%nat then true else expand,
               firstn (Z.to_nat size) b ++ out, size + Z.of_nat decoded, op, true)
         end
       else Ok (k, expand, b, size, op, true)) ;;
    if negb ok then Ok (k, expand, file, b, size, false)
    else if op =? 2 then Ok (k, expand, file, b, size, true)
    else if 0 <? bufsize - size then
      let left := match file with Some f => f | None => [] end in
      let data := firstn (length (k_temp k) - k_last k) left in
      temp <- memcpy_to (k_temp k) (Z.of_nat (k_last k)) data ;;
      let k := Decoder temp (k_last k + length data) (k_remain k) in
      let file := match data with [] => None | _ => Some (skipn (length data) left) end in
      match file with
      | None => if (k_last k =? 0)%nat then Ok (k, expand, file, b, size, true)
                else decode_loop fuel t k expand file b bufsize size op
      | Some _ => decode_loop fuel t k expand file b bufsize size op
      end
    else Ok (k, expand, file, b, size, true)).
Proof. reflexivity. Qed.
Lemma loop_ok t bufsize : full t -> forall fuel k e f b size op,
  sane k -> (0 < length (k_temp k))%nat -> 0 <= size <= bufsize -> bufsize <= Z.of_nat (length b) ->
  (length f + 2 <= fuel)%nat -> (k_last k = O -> op <> 2) ->
  exists k' e' file' b' size' D, decode_loop fuel t k e (Some f) b bufsize size op = Ok (k', e', file', b', size', true) /\
    brought t k (Some f) e b bufsize size k' file' e' b' size' D.
Proof.
  intros F. induction fuel as [|fuel IH]; intros k e f b size op Sn Tp Sz Lb Lf Op; [lia|].
  rewrite loop_S.
  (* the first half: what is pending *)
  assert (H : exists k1 e1 b1 size1 op1 n, (n <= k_last k)%nat /\
    (if (0 <? k_last k)%nat then
         out <- ptr_at b size ;;
         r <- stream_decode t k out (Z.to_nat (bufsize - size)) ;;
         match r with
         | None => Ok (k, e, b, size, op, false)
         | Some (k, out, decoded) =>
           let op := if (k_last k =? 0)%nat then 1 else 2 in
           Ok (k, if (op =? 2) && (decoded =? 0)%nat then true else e,
               firstn (Z.to_nat size) b ++ out, size + Z.of_nat decoded, op, true)
         end
       else Ok (k, e, b, size, op, true)) = Ok (k1, e1, b1, size1, op1, true) /\
    sane k1 /\ length (k_temp k1) = length (k_temp k) /\ pending k1 = skipn n (pending k) /\
    size1 = size + Z.of_nat (length (transcode t (firstn n (pending k)))) /\ size1 <= bufsize /\ length b1 = length b /\
    firstn (Z.to_nat size1) b1 = firstn (Z.to_nat size) b ++ transcode t (firstn n (pending k)) /\
    (op1 = 2 \/ op1 <> 2 /\ k_last k1 = O) /\
    (op1 = 2 -> (n < k_last k)%nat /\ bufsize - size < Z.of_nat (length (transcode t (firstn (S n) (pending k))))) /\
    (e1 = true -> e = true \/ (op1 = 2 /\ n = O /\ (0 < k_last k)%nat))).
  { destruct (Nat.ltb_spec 0 (k_last k)) as [L|L].
    - rewrite ptr_ok by lia. cbn [bind].
      destruct (decode_ok t k (skipn (Z.to_nat size) b) (Z.to_nat (bufsize - size)) F Sn) as (n & k1 & out1 & N1 & E & Sn1 & T1 & P1 & O1 & N2 & N3).
      { rewrite skipn_length. lia. }
      rewrite E. cbn [bind]. cbv zeta. set (D := transcode t (firstn n (pending k))) in *.
      assert (Lk1 : k_last k1 = (k_last k - n)%nat) by (rewrite <- (lp k1 Sn1), P1, skipn_length, (lp k Sn); reflexivity).
      eexists k1, _, _, _, _, n. split; [exact N1|]. split; [reflexivity|]. split; [exact Sn1|]. split; [exact T1|]. split; [exact P1|]. split; [reflexivity|].
      split; [lia|]. subst out1.
      assert (Lfb : length (firstn (Z.to_nat size) b) = Z.to_nat size) by (rewrite firstn_length; lia).
      split; [rewrite !app_length, !skipn_length, Lfb; lia|].
      split.
      { rewrite app_assoc. rewrite firstn_app. rewrite app_length, Lfb.
        replace (Z.to_nat (size + Z.of_nat (length D)) - (Z.to_nat size + length D))%nat with O by lia. rewrite firstn_O, app_nil_r.
        apply firstn_all2. rewrite app_length, Lfb. fold D. lia. }
      destruct (Nat.eqb_spec (k_last k1) 0) as [Z1|Z1].
      + split; [right; split; [discriminate|exact Z1]|]. split; [discriminate|]. cbn [Z.eqb andb]. change (1 =? 2) with false. cbn [andb]. auto.
      + split; [left; reflexivity|]. split.
        { intros _. split; [lia|]. specialize (N3 ltac:(lia)). lia. }
        change (2 =? 2) with true. cbn [andb]. destruct (Nat.eqb_spec (length D) 0) as [D0|D0]; [|auto]. intros _. right. split; [reflexivity|].
        split; [|lia]. destruct n as [|n]; trivial. exfalso. unfold D in D0.
        apply length_zero_iff_nil, transcode_none in D0; trivial. apply (f_equal (@length _)) in D0. rewrite firstn_length, (lp k Sn) in D0. cbn [length] in D0. lia.
    - exists k, e, b, size, op, O. split; [lia|]. split; [reflexivity|]. split; [exact Sn|]. split; [reflexivity|]. split; [reflexivity|].
      change (transcode t (firstn 0 (pending k))) with (@nil ascii). cbn [length]. change (Z.of_nat 0) with 0. rewrite Z.add_0_r, app_nil_r.
      split; [reflexivity|]. split; [lia|]. split; [reflexivity|]. split; [reflexivity|]. assert (k_last k = O) by lia.
      split; [right; auto|]. split; [intros X; exfalso; exact (Op H X)|]. auto. }
  destruct H as (k1 & e1 & b1 & size1 & op1 & n & Nk & E & Sn1 & T1 & P1 & S1 & R1 & L1 & B1 & O1 & O2 & E1). 
  match goal with |- context [bind ?x _] => replace x with (Ok (k1, e1, b1, size1, op1, true)) by (symmetry; exact E) end. clear E. cbn [bind negb].
  set (D := transcode t (firstn n (pending k))) in *.
  assert (Flow : pending k = firstn n (pending k) ++ pending k1) by (rewrite P1, firstn_skipn; reflexivity).
  assert (Full : op1 = 2 -> 6 <= bufsize - size -> D <> []).
  { intros X R X0. destruct (O2 X) as (Q1 & Q2). unfold D in X0. apply transcode_none in X0; trivial.
    assert (n = O). { destruct n; trivial. apply (f_equal (@length _)) in X0. rewrite firstn_length, (lp k Sn) in X0. cbn [length] in X0. lia. } subst n.
    destruct (pending k) as [|c p]; [cbn in Q2; lia|]. change (firstn 1 (c :: p)) with [c] in Q2. rewrite transcode_cons, app_length in Q2. cbn [transcode map concat length] in Q2.
    pose proof (written_long t c F). lia. }
  destruct (Z.eqb_spec op1 2) as [X|X].
  { eexists k1, e1, (Some f), b1, size1, D. split; [reflexivity|]. split; trivial.
    - exists (firstn n (pending k)). split; [|reflexivity]. rewrite Flow at 1. rewrite <- app_assoc. reflexivity.
    - discriminate.
    - intros Y. destruct (E1 Y) as [Z1|(_ & -> & Pk)]; [auto|]. destruct (Z.eq_dec size bufsize) as [Q0|Q0]; [auto|]. right. right.
      destruct (O2 X) as (Q1 & Q2). destruct (pending k) as [|c p]; [cbn in Q2; lia|]. change (firstn 1 (c :: p)) with [c] in Q2.
      rewrite transcode_cons, app_length in Q2. cbn [transcode map concat length] in Q2. exists c. split; [left; reflexivity|lia].
    - intros R. right. auto. }
  destruct O1 as [O1|(_ & K1)]; [contradiction|].
  assert (E1' : e1 = true -> e = true) by (intros Y; destruct (E1 Y) as [|(Z1 & _)]; [trivial|contradiction]).
  assert (P10 : pending k1 = []) by (unfold pending; rewrite K1; reflexivity).
  rewrite P10, app_nil_r in Flow.
  destruct (Z.ltb_spec 0 (bufsize - size1)) as [Rm|Rm].
  2: { eexists k1, e1, (Some f), b1, size1, D. split; [reflexivity|]. split; trivial.
    - exists (firstn n (pending k)). split; [|reflexivity]. rewrite P10, Flow at 1. reflexivity.
    - intros Y. left. auto.
    - intros R. right. intros X0. rewrite X0 in S1. cbn [length] in S1. lia. }
  cbv zeta. cbn [left_of]. rewrite K1, Nat.sub_0_r, T1. change (Z.of_nat 0) with 0.
  set (data := firstn (length (k_temp k)) f).
  assert (Ld : (length data <= length (k_temp k))%nat) by (unfold data; rewrite firstn_length; lia).
  rewrite memcpy_ok by lia. cbn [bind]. change (Z.to_nat 0) with O. cbn [firstn app Nat.add].
  set (k2 := Decoder (data ++ skipn (length data) (k_temp k1)) (length data) (k_remain k1)).
  assert (Pd : pending k2 = data) by (unfold pending, k2; cbn [k_last k_temp]; apply firstn_app_len).
  assert (Sf : f = data ++ skipn (length data) f).
  { unfold data. rewrite firstn_length. destruct (Nat.le_ge_cases (length f) (length (k_temp k))).
    - rewrite firstn_all2, Nat.min_r, skipn_all, app_nil_r by lia. reflexivity.
    - rewrite Nat.min_l by lia. symmetry. apply firstn_skipn. }
  destruct data as [|c data'] eqn:Ed.
  { assert (f = []). { unfold data in Ed. destruct f; trivial. destruct (k_temp k); [cbn in Tp; lia|discriminate]. } subst f.
    cbn [k_last k2 length Nat.eqb]. eexists _, e1, None, b1, size1, D. split; [reflexivity|]. split; trivial.
    - unfold sane. cbn. lia.
    - exists (pending k). split; [cbn [left_of]; rewrite !app_nil_r; reflexivity|unfold D; rewrite <- Flow; reflexivity].
    - intros Y. left. auto.
    - intros R. left. reflexivity. }
  clear Ed. clear data. set (data := c :: data') in *. assert (Ne : data <> []) by discriminate. clearbody data.
  assert (Ld1 : (1 <= length data)%nat) by (destruct data; [contradiction|cbn; lia]).
  assert (T2 : length (k_temp k2) = length (k_temp k)) by (unfold k2; cbn [k_temp]; rewrite app_length, skipn_length; lia).
  destruct (IH k2 e1 (skipn (length data) f) b1 size1 op1) as (k3 & e3 & file3 & b3 & size3 & D3 & E & B3).
  { unfold sane. unfold k2 at 1. cbn [k_last]. lia. }
  { lia. }
  { lia. }
  { lia. }
  { pose proof (f_equal (@length _) Sf) as X0. rewrite app_length in X0. rewrite skipn_length in *. lia. }
  { unfold k2. cbn [k_last]. lia. }
  destruct B3 as [B31 B32 B33 B34 B35 B36 (read & B37 & B37') B38 B39 B310].
  rewrite E. eexists k3, e3, file3, b3, size3, (D ++ D3). split; [reflexivity|]. split; trivial.
  - congruence.
  - congruence.
  - rewrite app_length. lia.
  - rewrite B36, B1, app_assoc. reflexivity.
  - exists (firstn n (pending k) ++ read). cbn [left_of] in *. rewrite Pd in B37. rewrite Sf at 1. rewrite B37, Flow at 1. rewrite <- app_assoc. split; [reflexivity|]. rewrite transcode_app. unfold D. congruence.
  - intros Y. destruct (B39 Y) as [Z1|[Z1|(c0 & Z1 & Z2)]]; [left; auto|lia|]. right. right. exists c0. split; [|exact Z2].
    cbn [left_of] in *. rewrite Pd, <- Sf in Z1. apply in_or_app. right. exact Z1.
  - intros R. destruct file3 as [f3|]; [|auto]. right. intros Y. apply app_eq_nil in Y. destruct Y as (Y1 & Y2). rewrite Y1 in S1. cbn [length] in S1. destruct (B310 ltac:(lia)); [discriminate|contradiction].
Qed.
