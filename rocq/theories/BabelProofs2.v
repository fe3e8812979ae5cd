(** Conversion with a table. *)
From Coq Require Import NArith.
From Verif Require Import Prelude Arr BabelModel BabelSpec BabelExec BabelProofs.
Open Scope nat_scope.
Open Scope list_scope.

Lemma copy_entry_ok : forall buf done rest, length buf <= length rest ->
  copy_entry (length buf) buf done rest = Ok (rev_append (map ascii_of_N buf) done, skipn (length buf) rest).
Proof.
  induction buf as [|b buf IH]; intros done rest L; [reflexivity|]. destruct rest as [|x rest]; cbn [length] in L; [lia|].
  cbn [length copy_entry map rev_append skipn]. apply IH. lia.
Qed.
Lemma full_entry t c : full t -> exists buf, nth_error t (N.to_nat (N_of_ascii c)) = Some (length buf, buf) /\ written t c = map ascii_of_N buf /\ 1 <= length buf <= 6.
Proof.
  intros [L F]. assert (B : N.to_nat (N_of_ascii c) < length t) by (rewrite L; pose proof (N_ascii_bounded c); lia).
  apply nth_error_Some in B. destruct (nth_error t (N.to_nat (N_of_ascii c))) as [[n buf]|] eqn:E; [|congruence]. clear B.
  assert (I : In (n, buf) t) by (eapply nth_error_In; exact E). rewrite Forall_forall in F. destruct (F _ I) as [H1 H2]. cbn in H1, H2. subst n.
  exists buf. split; [reflexivity|]. split; [|exact H2]. unfold written. rewrite (nth_error_nth _ _ _ E). reflexivity.
Qed.
Lemma transcode_cons t c l : transcode t (c :: l) = written t c ++ transcode t l.
Proof. reflexivity. Qed.
Lemma transcode_app t a b : transcode t (a ++ b) = transcode t a ++ transcode t b.
Proof. unfold transcode. rewrite map_app, concat_app. reflexivity. Qed.
Lemma conv_loop_ok t : full t -> forall n suf junk it done rest room it2,
  length suf = n -> room <= length rest ->
  exists k, k <= n /\
    conv_loop n t (suf ++ junk) it done rest room it2 =
      Ok (rev done ++ transcode t (firstn k suf) ++ skipn (length (transcode t (firstn k suf))) rest, it + k, it2 + length (transcode t (firstn k suf))) /\
    length (transcode t (firstn k suf)) <= room /\
    (k < n -> room < length (transcode t (firstn (S k) suf))).
Proof.
  intros Ft n. induction n as [|n IH]; intros suf junk it done rest room it2 L R; cbn [conv_loop].
  - exists 0. cbn [firstn transcode map concat app skipn length]. rewrite !Nat.add_0_r, rev_append_rev. repeat split; lia.
  - destruct suf as [|c suf]; [discriminate|]. injection L as L. destruct (Nat.ltb_spec 0 room) as [H|H].
    2: { exists 0. cbn [firstn transcode map concat app skipn length]. rewrite !Nat.add_0_r, rev_append_rev. repeat split; try lia. intros _.
         destruct (full_entry t c Ft) as (buf & _ & -> & B). rewrite app_length, map_length. lia. }
    cbn [app]. destruct (full_entry t c Ft) as (buf & E & W & B). unfold aget. rewrite E. cbn [of_option bind].
    destruct (Nat.ltb_spec room (length buf)) as [H2|H2].
    { exists 0. cbn [firstn transcode map concat app skipn length]. rewrite !Nat.add_0_r, rev_append_rev. repeat split; try lia. intros _. rewrite W, app_length, map_length. cbn [length]. lia. }
    rewrite (copy_entry_ok buf done rest) by lia. cbn [bind].
    assert (Lb : length (map ascii_of_N buf) = length buf) by apply map_length.
    destruct (IH suf junk (S it) (rev_append (map ascii_of_N buf) done) (skipn (length buf) rest) (room - length buf) (length buf + it2) L) as (k & K & Q & S1 & S2); [rewrite skipn_length; lia|].
    exists (S k). split; [lia|]. split.
    + rewrite Q. change (firstn (S k) (c :: suf)) with (c :: firstn k suf). rewrite transcode_cons, W, app_length, Lb.
      rewrite rev_append_rev, rev_app_distr, rev_involutive, <- !app_assoc.
      assert (Sk : forall (A : Type) (l : list A) a b, skipn a (skipn b l) = skipn (b + a) l).
      { clear. intros A l a b. revert l. induction b as [|b IH]; intros l; [reflexivity|]. destruct l; cbn [skipn plus]; [apply skipn_nil|apply IH]. }
      rewrite Sk. replace (S it + k) with (it + S k) by lia. replace (length buf + it2 + length (transcode t (firstn k suf))) with (it2 + (length buf + length (transcode t (firstn k suf)))) by lia. reflexivity.
    + change (firstn (S k) (c :: suf)) with (c :: firstn k suf). change (firstn (S (S k)) (c :: suf)) with (c :: firstn (S k) suf). rewrite !transcode_cons, W, !app_length, Lb. split; [lia|]. intros H3. specialize (S2 ltac:(lia)). lia.
Qed.

(** one call: [k] bytes are converted *)
Lemma single_ok t src junk out size remain : full t -> size <= length out ->
  exists k, k <= length src /\
    single_to_utf8 t (src ++ junk) (length src) out size remain =
      Ok (transcode t (firstn k src) ++ skipn (length (transcode t (firstn k src))) out, length (transcode t (firstn k src)),
          if Nat.eqb k (length src) then 1 else 2, if Nat.eqb k (length src) then remain else k) /\
    length (transcode t (firstn k src)) <= size /\
    (k < length src -> size < length (transcode t (firstn (S k) src))).
Proof.
  intros F S. destruct (conv_loop_ok t F (length src) src junk 0 [] out size 0 eq_refl S) as (k & K & Q & S1 & S2).
  exists k. split; [exact K|]. split; [|split; [exact S1|exact S2]]. unfold single_to_utf8. cbn [app rev plus] in Q. rewrite Q. cbn [bind]. destruct (Nat.eqb k (length src)); reflexivity.
Qed.

Lemma pack_ok : forall n temp rm i, rm + i + n <= length temp -> exists temp', pack_loop n temp rm i = Ok temp' /\ length temp' = length temp /\
  forall j, nth_error temp' j = if (i <=? j) && (j <? i + n) then nth_error temp (rm + j) else nth_error temp j.
Proof.
  induction n as [|n IH]; intros temp rm i L; cbn [pack_loop].
  - exists temp. split; [reflexivity|]. split; [reflexivity|]. intros j. destruct (Nat.leb_spec i j), (Nat.ltb_spec j (i + 0)); cbn [andb]; lia || reflexivity.
  - destruct (nth_error temp (rm + i)) as [c|] eqn:E; [|apply nth_error_None in E; lia]. unfold aget. rewrite E. cbn [of_option bind].
    destruct (aset_ok temp i c ltac:(lia)) as [t1 E1]. rewrite E1. cbn [bind]. pose proof (aset_length _ _ _ _ E1) as L1. pose proof (aset_nth _ _ _ _ E1) as N1.
    destruct (IH t1 rm (i + 1)) as (t2 & E2 & L2 & N2); [lia|]. exists t2. split; [exact E2|]. split; [lia|]. intros j. rewrite N2, !N1.
    destruct (Nat.leb_spec (i + 1) j), (Nat.ltb_spec j (i + 1 + n)), (Nat.leb_spec i j), (Nat.ltb_spec j (i + S n)), (Nat.eqb_spec j i), (Nat.eqb_spec (rm + j) i); cbn [andb]; subst; auto; lia.
Qed.
Lemma nth_ext_error {A} (a b : list A) : (forall j, nth_error a j = nth_error b j) -> a = b.
Proof.
  revert b. induction a as [|x a IH]; intros [|y b] H; [reflexivity|specialize (H 0); discriminate H|specialize (H 0); discriminate H|].
  f_equal; [specialize (H 0); injection H as ->; reflexivity|apply IH; intros j; exact (H (S j))].
Qed.
Lemma firstn_ext {A} (a b : list A) n m : m + n <= length b -> length a = length b -> (forall j, j < n -> nth_error a j = nth_error b (m + j)) -> firstn n a = firstn n (skipn m b).
Proof.
  intros L La H. apply nth_ext_error. intros j. 
  destruct (Nat.ltb_spec j n) as [J|J].
  - assert (X : forall (l : list A), nth_error (firstn n l) j = nth_error l j) by (intros l; clear -J; revert j l J; induction n as [|n IH]; intros [|j] [|x l] J; cbn; try lia; auto; apply IH; lia).
    rewrite !X, (H j J). clear. revert b. induction m as [|m IH]; intros b; [reflexivity|]. destruct b; cbn; [destruct j; reflexivity|apply IH].
  - assert (X : forall (l : list A), nth_error (firstn n l) j = None) by (intros l; apply nth_error_None; rewrite firstn_length; lia). rewrite !X. reflexivity.
Qed.
Definition sane (k : decoder) : Prop := k_last k <= length (k_temp k).
(** one step of the stream *)
Lemma decode_ok t k out size : full t -> sane k -> size <= length out ->
  exists n k' out', n <= k_last k /\ stream_decode t k out size = Ok (Some (k', out', length (transcode t (firstn n (pending k))))) /\ sane k' /\ length (k_temp k') = length (k_temp k) /\ pending k' = skipn n (pending k) /\ out' = transcode t (firstn n (pending k)) ++ skipn (length (transcode t (firstn n (pending k)))) out /\ length (transcode t (firstn n (pending k))) <= size /\ (n < k_last k -> size < length (transcode t (firstn (S n) (pending k)))).
Proof.
  intros F Sn Sz. assert (Lp : length (pending k) = k_last k) by (apply firstn_length_le; exact Sn).
  assert (T : k_temp k = pending k ++ skipn (k_last k) (k_temp k)) by (symmetry; apply firstn_skipn).
  destruct (single_ok t (pending k) (skipn (k_last k) (k_temp k)) out size (k_remain k) F Sz) as (n & K & Q & S1 & S2). rewrite <- T in Q. rewrite Lp in *.
  unfold stream_decode. rewrite Q. cbn [bind]. destruct (Nat.eqb_spec n (k_last k)) as [En|En].
  - exists n, (Decoder (k_temp k) 0 (k_remain k)). eexists. split; [exact K|]. split; [reflexivity|]. split; [unfold sane; cbn; lia|]. split; [reflexivity|].
    split; [unfold pending at 1; cbn [k_last k_temp firstn]; symmetry; apply skipn_all2; lia|]. split; [reflexivity|]. split; [exact S1|lia].
  - cbn [Nat.eqb]. destruct (Nat.eqb_spec (k_last k - n) 0); [lia|].
    destruct (pack_ok (k_last k - n) (k_temp k) n 0) as (tmp & E & Lt & Nt); [unfold sane in Sn; lia|]. rewrite E. cbn [bind].
    exists n, (Decoder tmp (k_last k - n) n). eexists. split; [exact K|]. split; [reflexivity|]. split; [unfold sane; cbn [k_last k_temp]; unfold sane in Sn; lia|]. split; [exact Lt|].
    split; [|split; [reflexivity|]; split; [exact S1|exact S2]].
    unfold pending. cbn [k_last k_temp]. rewrite skipn_firstn_comm. apply firstn_ext; [unfold sane in Sn; lia|exact Lt|].
    intros j J. rewrite Nt. destruct (Nat.leb_spec 0 j), (Nat.ltb_spec j (0 + (k_last k - n))); cbn [andb]; lia || reflexivity.
Qed.
Lemma firstn_app_len {A} (a b : list A) : firstn (length a) (a ++ b) = a.
Proof. rewrite firstn_app, Nat.sub_diag, firstn_all. cbn. apply app_nil_r. Qed.
Lemma decode_all_ok t : full t -> forall outs k, sane k ->
  exists k' l, decode_all t k outs = Ok (k', l) /\ sane k' /\ length (k_temp k') = length (k_temp k) /\ concat l ++ transcode t (pending k') = transcode t (pending k) /\ Forall2 (fun o b => length o <= length b) l outs /\ ((forall b, In b outs -> 6 <= length b) -> k_last k <= length outs -> pending k' = []).
Proof.
  intros F outs. induction outs as [|out outs IH]; intros k Sn; cbn [decode_all].
  - exists k, []. split; [reflexivity|]. split; [exact Sn|]. split; [reflexivity|]. split; [reflexivity|]. split; [constructor|]. intros _ H. unfold pending. cbn in H. replace (k_last k) with 0 by lia. reflexivity.
  - destruct (decode_ok t k out (length out) F Sn (le_n _)) as (n & k1 & out1 & K & Q & Sn1 & Lt1 & P1 & O1 & S1 & S2). rewrite Q. cbn [bind].
    destruct (IH k1 Sn1) as (k2 & l & E & Sn2 & Lt2 & C & F2 & Fin). rewrite E. cbn [bind]. exists k2, (transcode t (firstn n (pending k)) :: l).
    rewrite O1, firstn_app_len. split; [reflexivity|]. split; [exact Sn2|]. split; [lia|]. split; [|split; [constructor; [exact S1|exact F2]|]].
    + cbn [concat]. rewrite <- app_assoc, C, P1, <- transcode_app, firstn_skipn. reflexivity.
    + intros B L. apply Fin; [intros b I; apply B; right; exact I|]. cbn [length] in L.
      assert (Lp : forall x, sane x -> length (pending x) = k_last x) by (intros x H; apply firstn_length_le; exact H).
      assert (L1 : k_last k1 = k_last k - n) by (rewrite <- (Lp k1 Sn1), P1, skipn_length, (Lp k Sn); reflexivity).
      rewrite L1. destruct (Nat.eq_dec n 0) as [->|]; [|lia]. destruct (k_last k) as [|m] eqn:Ek; [lia|]. exfalso. specialize (S2 ltac:(lia)).
      destruct (pending k) as [|c p] eqn:Ep; [pose proof (Lp k Sn) as H; rewrite Ep in H; cbn in H; lia|]. change (firstn 1 (c :: p)) with [c] in S2.
      destruct (full_entry t c F) as (buf & _ & W & Bf). rewrite transcode_cons, W, app_length, map_length in S2. cbn in S2. specialize (B out (or_introl eq_refl)). lia.
Qed.
