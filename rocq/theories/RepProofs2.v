(** Streams stay inside their buffer; reporting an error and giving up (C60). *)
From Coq Require Import Permutation Lia.
From Verif Require Import Prelude StrModel AttrModel TreeModel StreamModel RepModel RepSpec RepProofs.
Open Scope Z_scope.

Definition fd (st : stream) : bool := match s_kind st with MEM => false | _ => true end.
(** the bytes of the text, some of them replaced by NUL *)
Definition masked (buf text : bytes) : Prop := Forall2 (fun x y => x = y \/ x = NUL) buf text.
Lemma masked_len buf text : masked buf text -> length buf = length text.
Proof. induction 1; cbn; congruence. Qed.
Lemma masked_refl text : masked text text.
Proof. induction text; constructor; auto. Qed.
Lemma masked_skip : forall n buf text, masked buf text -> masked (skipn n buf) (skipn n text).
Proof. induction n as [|n IH]; intros buf text M; trivial. destruct M; cbn; [constructor|apply IH; trivial]. Qed.
Lemma masked_first : forall n buf text, masked buf text -> masked (firstn n buf) (firstn n text).
Proof. induction n as [|n IH]; intros buf text M; [constructor|]. destruct M; cbn; [constructor|constructor; [trivial|apply IH; trivial]]. Qed.
Lemma masked_set : forall buf text n b, masked buf text -> set_at buf n NUL = Some b -> masked b text.
Proof.
  intros buf text n b M. revert n b. induction M as [|x y buf text E M IH]; intros [|n] b; cbn [set_at]; try discriminate.
  - intros [= <-]. constructor; auto.
  - destruct (set_at buf n NUL) as [b'|] eqn:S1; cbn; try discriminate. intros [= <-]. constructor; auto. eapply IH; eauto.
Qed.
Lemma masked_wr buf text i b : masked buf text -> wr buf i NUL = Ok b -> masked b text.
Proof.
  intros M. unfold wr. destruct (i <? 0); [discriminate|]. destruct (set_at buf (Z.to_nat i) NUL) as [b'|] eqn:E; [|discriminate].
  intros [= <-]. eapply masked_set; eauto.
Qed.
Lemma masked_cstr buf text : masked buf text -> exists rest, text = cstr buf ++ rest.
Proof.
  induction 1 as [|x y buf text E M (rest & IH)]; [now exists []|]. cbn [cstr].
  destruct (Ascii.eqb_spec x NUL) as [|N]; [eexists; reflexivity|]. destruct E as [->|]; [|congruence]. exists rest. cbn. congruence.
Qed.

Definition ok (sz : bytes) (st : stream) : Prop :=
  fd st = false -> s_size st = Z.of_nat (length sz) /\ 0 <= s_idx st /\ 0 <= s_prev st /\ s_idx st + s_prev st <= s_size st /\ exists tail, masked (s_buf st) (sz ++ tail).

(** an error has been told *)
Record told (w : bool) (p : option ptr) (m : book) (extra : list nat) : Prop := Told {
  t_exact : exact m (own m ++ heap_of p ++ opt_of (near m) ++ opt_of (follow m) ++ document m ++ blocks_of m ++ extra);
  t_last : last m = p;
  t_linked : linked m = true;
  t_wanted : wanted m = w;
  t_own : own m <> [] }.
Lemma idle_told w b p m e : idle w b p m e -> told w p m e.
Proof.
  intros [E L P N F K W R O D]. constructor; trivial. unfold blocks_of. rewrite N, F, R. cbn [opt_of app concat map]. exact E.
Qed.
(** permutations of appended lists, by counting *)
Ltac perm := unfold blocks_of; cbn; apply (proj2 (Permutation_count_occ Nat.eq_dec _ _)); intro; repeat (rewrite count_occ_app || cbn [count_occ app]);
  repeat destruct (Nat.eq_dec _ _); lia.
Lemma told_touch w p m e : told w p m e -> touch m = Ok tt.
Proof. intros [E _ _ _ O]. eapply touch_ok; eauto. Qed.
Lemma told_take w p m e : told w p m e -> told w p (fst (take m)) (next m :: e).
Proof.
  intros [E L K W O]. constructor; trivial. eapply exact_perm; [|exact (take_exact _ _ E)].
  cbn [take fst with_live own near follow document]. unfold blocks_of. cbn [reports]. perm.
Qed.

Lemma sub_ok sz st off n : ok sz st -> (fd st = false -> 0 <= off /\ 0 <= n /\ off + n <= s_size st) ->
  (exists t, mem_sub (s_buf st) off n = Ok t) \/ (mem_sub (s_buf st) off n = UB /\ fd st = true).
Proof.
  intros K H. unfold mem_sub. destruct (_ || _) eqn:E; [|left; eexists; reflexivity]. right. split; trivial.
  destruct (fd st) eqn:F; trivial. destruct (K F) as (K0 & K1 & K2 & K3 & tail & K4). destruct (H eq_refl) as (H1 & H2 & H3).
  apply masked_len in K4. rewrite app_length in K4. cbn [length] in K4.
  rewrite !orb_true_iff, !Z.ltb_lt in E. lia.
Qed.
Lemma sub_begins sz st a b t : ok sz st -> fd st = false -> mem_sub (s_buf st) a (b - a) = Ok t -> 0 <= a -> b <= Z.of_nat (length sz) ->
  begins sz a b (cstr t).
Proof.
  intros K F M A B. destruct (K F) as (K0 & K1 & K2 & K3 & tail & K4). unfold mem_sub in M. destruct (_ || _); [discriminate|]. injection M as <-.
  unfold begins. assert (E : firstn (Z.to_nat (b - a)) (skipn (Z.to_nat a) (sz ++ tail)) = firstn (Z.to_nat (b - a)) (skipn (Z.to_nat a) sz)).
  { rewrite skipn_app, firstn_app. replace (Z.to_nat (b - a) - length (skipn (Z.to_nat a) sz))%nat with 0%nat by (rewrite skipn_length; lia).
    cbn [firstn]. apply app_nil_r. }
  rewrite <- E. apply masked_cstr. apply masked_first, masked_skip. exact K4.
Qed.
(** what was copied before is released *)
Lemma drop_follow w p m e : told w p m e ->
  exists m1, release_opt m (follow m) = Ok m1 /\ told w p (with_follow m1 None) e /\ reports m1 = reports m.
Proof.
  intros H. destruct (follow m) as [x|] eqn:Fo; cbn [release_opt].
  - destruct H as [E L Kk W O]. rewrite Fo in E. cbn [opt_of app] in E.
    destruct (release_exact m x (own m ++ heap_of p ++ opt_of (near m) ++ document m ++ blocks_of m ++ e)) as (Li & R & E').
    { eapply exact_perm; [|exact E]. perm. }
    rewrite R. eexists; split; [reflexivity|]. split; [|reflexivity]. constructor; trivial.
  - exists m. split; trivial. split; trivial. destruct H as [E L Kk W O]. rewrite Fo in E. constructor; trivial.
Qed.
Lemma drop_near w p m e : told w p m e ->
  exists m1, release_opt m (near m) = Ok m1 /\ told w p (with_near m1 None) e /\ reports m1 = reports m.
Proof.
  intros H. destruct (near m) as [x|] eqn:Fo; cbn [release_opt].
  - destruct H as [E L Kk W O]. rewrite Fo in E. cbn [opt_of app] in E.
    destruct (release_exact m x (own m ++ heap_of p ++ opt_of (follow m) ++ document m ++ blocks_of m ++ e)) as (Li & R & E').
    { eapply exact_perm; [|exact E]. perm. }
    rewrite R. eexists; split; [reflexivity|]. split; [|reflexivity]. constructor; trivial.
  - exists m. split; trivial. split; trivial. destruct H as [E L Kk W O]. rewrite Fo in E. constructor; trivial.
Qed.

Lemma get_following_ok sz w p m e st n : told w p m e -> ok sz st -> 0 < n ->
  (get_following m st n = UB /\ fd st = true) \/
  exists m' t, get_following m st n = Ok (m', t) /\ told w p m' e /\ reports m' = reports m /\
    (fd st = false -> begins sz (s_idx st) (Z.min (Z.of_nat (length sz)) (s_idx st + n)) t).
Proof.
  intros H K Pn. unfold get_following. rewrite (told_touch _ _ _ _ H). cbn [bind].
  destruct (Z.leb_spec (s_size st) (s_idx st)) as [C|C].
  - right. eexists _, _. split; [reflexivity|]. split; [tauto|]. split; trivial. intros _. eexists; reflexivity.
  - cbv zeta. destruct (drop_follow _ _ _ _ H) as (m1 & R & H1 & Re). rewrite R. cbn [bind].
    unfold take. cbv beta iota.
    assert (H2 : told w p (with_follow (with_live m1 (next m1 :: live m1) (S (next m1))) (Some (next m1))) e).
    { apply told_take in H1. destruct H1 as [E L Kk W O]. constructor; trivial. cbn in *. unfold blocks_of in *. cbn in *.
      eapply exact_perm; [|exact E]. perm. }
    match goal with |- context [mem_sub _ _ ?k] => destruct (sub_ok sz st (s_idx st) k K) as [(t & M)|(M & F)] end.
    { intros F. destruct (K F) as (K0 & K1 & K2 & K3 & K4). destruct (Z.ltb_spec (s_size st) (n + s_idx st)); lia. }
    + rewrite M. cbn [bind]. right. eexists _, _. split; [reflexivity|]. split; trivial. split; trivial. intros F. destruct (K F) as (K0 & K1 & K2 & K3 & _).
      eapply sub_begins; eauto; [|lia]. rewrite <- M. f_equal. destruct (Z.ltb_spec (s_size st) (n + s_idx st)); lia.
    + rewrite M. left. tauto.
Qed.
Lemma get_near_ok sz w p m e st n : told w p m e -> ok sz st -> 0 < n ->
  (get_near_to m st n = UB /\ fd st = true) \/
  exists m' t, get_near_to m st n = Ok (m', t) /\ told w p m' e /\ reports m' = reports m /\
    (fd st = false -> exists a b, 0 <= a <= s_idx st /\ s_idx st <= b <= Z.of_nat (length sz) /\ (a = 0 \/ n <= s_idx st - a) /\ (b = Z.of_nat (length sz) \/ n <= b - s_idx st) /\ begins sz a b t).
Proof.
  intros H K Pn. unfold get_near_to. rewrite (told_touch _ _ _ _ H). cbn [bind].
  cbv zeta. destruct (drop_near _ _ _ _ H) as (m1 & R & H1 & Re). rewrite R. cbn [bind].
  unfold take. cbv beta iota.
  assert (H2 : told w p (with_near (with_live m1 (next m1 :: live m1) (S (next m1))) (Some (next m1))) e).
  { apply told_take in H1. destruct H1 as [E L Kk W O]. constructor; trivial. cbn in *. unfold blocks_of in *. cbn in *.
    eapply exact_perm; [|exact E]. perm. }
  match goal with |- context [mem_sub _ ?i ?k] => destruct (sub_ok sz st i k K) as [(t & M)|(M & F)] end.
  { intros F. destruct (K F) as (K0 & K1 & K2 & K3 & K4).
    destruct (Z.leb_spec (s_idx st - n) 0); destruct (Z.leb_spec (s_size st - 1) (s_idx st + n)); lia. }
  + rewrite M. cbn [bind]. right. eexists _, _. split; [reflexivity|]. split; trivial. split; trivial. intros F. destruct (K F) as (K0 & K1 & K2 & K3 & _).
    exists (if s_idx st - n <=? 0 then 0 else s_idx st - n), (if s_size st - 1 <=? s_idx st + n then s_size st else s_idx st + n).
    destruct (Z.leb_spec (s_idx st - n) 0); destruct (Z.leb_spec (s_size st - 1) (s_idx st + n)); (split; [lia|]; split; [lia|]; split; [lia|]; split; [lia|]);
      (eapply sub_begins; [eassumption|eassumption|rewrite <- M; f_equal; lia|lia|lia]).
  + rewrite M. left. tauto.
Qed.

(** after telling: one error, if it was wanted *)
Definition one (w : bool) (m : book) (P : report -> Prop) : Prop :=
  if w then exists r, reports m = [r] /\ P r else reports m = [].
Lemma error_new_ok sz w b p m e st code text : idle w b p m e -> ok sz st ->
  (error_new m st code text = UB /\ fd st = true) \/
  exists m', error_new m st code text = Ok m' /\ told w p m' e /\ one w m' (fun r => r_code r = code /\ r_text r = text /\ (fd st = false -> place_in sz r)).
Proof.
  intros H K. unfold error_new. rewrite (i_wanted _ _ _ _ _ H). pose proof (i_reports _ _ _ _ _ H) as R0. apply idle_told in H.
  destruct w; [|right; exists m; split; [reflexivity|split; trivial]].
  destruct (take m) as [m1 b1] eqn:T1. cbn [bind].
  assert (H1 : told true p m1 (b1 :: e) /\ reports m1 = []).
  { apply told_take in H. unfold take in *. injection T1 as <- <-. tauto. }
  destruct H1 as (H1 & R1).
  destruct (get_following_ok sz _ _ _ _ st 10 H1 K) as [(G & F)|(m2 & t & G & H2 & R2 & Bf)]; [lia| |]; rewrite G; cbn [bind]; [left; tauto|].
  destruct (get_near_ok sz _ _ _ _ st 10 H2 K) as [(G' & F)|(m3 & t' & G' & H3 & R3 & Bn)]; [lia| |]; rewrite G'; cbn [bind]; [left; tauto|].
  right. unfold take. cbn [bind]. eexists; split; [reflexivity|]. split.
  - apply told_take in H3. destruct H3 as [E L Kk W O]. constructor; trivial. cbn in *. unfold blocks_of in *. cbn in *.
    eapply exact_perm; [|exact E]. perm.
  - cbn. rewrite R3, R2, R1. eexists; split; [reflexivity|]. split; [reflexivity|split; [reflexivity|]]. intros F. destruct (K F) as (Ks & K1 & K2 & K3 & K4).
    eexists _, _, _. cbn. rewrite Ks. split; [reflexivity|]. split; [lia|]. split; [apply Bn; trivial|apply Bf; trivial].
Qed.
Lemma error_report_ok sz w b p m e st code text : idle w b p m e -> ok sz st ->
  (error_report m st code text = UB /\ fd st = true) \/
  exists m', error_report m st code text = Ok m' /\ told w p m' e /\ one w m' (fun r => r_code r = code /\ r_text r = text /\ (fd st = false -> place_in sz r)).
Proof.
  intros H K. unfold error_report. pose proof (i_reports _ _ _ _ _ H) as R0. pose proof (i_wanted _ _ _ _ _ H) as W0. apply idle_told in H.
  destruct (get_near_ok sz _ _ _ _ st 100 H K) as [(G' & F)|(m3 & t' & G' & H3 & R3 & Bn)]; [lia| |]; rewrite G'; cbn [bind]; [left; tauto|].
  right. pose proof (t_wanted _ _ _ _ H3) as W3. rewrite W3.
  destruct w; [|exists m3; split; [reflexivity|split; trivial; cbn; congruence]].
  unfold take. cbn [bind]. eexists; split; [reflexivity|]. split.
  - apply told_take in H3. apply told_take in H3. destruct H3 as [E L Kk W O]. constructor; trivial. cbn in *. unfold blocks_of in *. cbn in *.
    eapply exact_perm; [|exact E]. perm.
  - cbn. rewrite R3, R0. eexists; split; [reflexivity|]. split; [reflexivity|split; [reflexivity|]]. intros F. destruct (K F) as (Ks & K1 & K2 & K3 & K4).
    eexists _, _, _. cbn. rewrite Ks. split; [reflexivity|]. split; [lia|]. split; [|eexists; reflexivity].
    destruct (Bn F) as (x & y & B1 & B2 & B3 & B4 & B5). exists x, y. split; [lia|]. split; [lia|]. split; [lia|]. split; [lia|trivial].
Qed.

(** giving up *)
Lemma stream_free_ok w p m e : told w p m e -> p <> Some Pool -> exists m', stream_free m = Ok m' /\
  exact m' (blocks_of m' ++ e) /\ reports m' = reports m /\ document m' = [] /\ own m' = [] /\ last m' = None /\ near m' = None /\ follow m' = None.
Proof.
  intros H Np. unfold stream_free. rewrite (told_touch _ _ _ _ H). cbn [bind].
  destruct H as [E L K W O]. rewrite K. unfold doc_free.
  destruct (releases_exact (document m) m (own m ++ heap_of p ++ opt_of (near m) ++ opt_of (follow m) ++ blocks_of m ++ e)) as (L1 & R1 & E1).
  { eapply exact_perm; [|exact E]. perm. }
  rewrite R1. cbn [bind]. set (m1 := with_document _ _ _).
  assert (E1' : exact m1 (own m ++ heap_of p ++ opt_of (near m) ++ opt_of (follow m) ++ blocks_of m ++ e)) by exact E1.
  assert (B : exists m2, release_chunk m1 = Ok m2 /\ exact m2 (own m ++ opt_of (near m) ++ opt_of (follow m) ++ blocks_of m ++ e) /\
     near m2 = near m /\ follow m2 = follow m /\ own m2 = own m /\ reports m2 = reports m /\ document m2 = [] /\ last m2 = None).
  { unfold release_chunk. change (last m1) with (last m). rewrite L. destruct p as [[x|]|]; [|congruence|].
    - destruct (release_exact m1 x (own m ++ opt_of (near m) ++ opt_of (follow m) ++ blocks_of m ++ e)) as (L2 & R2 & E2).
      { eapply exact_perm; [|exact E1']. cbn [heap_of]. perm. }
      rewrite R2. cbn [bind]. eexists; split; [reflexivity|]. split; [exact E2|]. cbn. repeat split.
    - exists m1. split; trivial. split; [exact E1'|]. cbn. repeat split. exact L. }
  destruct B as (m2 & R2 & E2 & Nn & Ff & Oo & Rr & Dd & Ll). rewrite R2. cbn [bind]. rewrite Nn.
  assert (B : exists L3, release_opt m2 (near m) = Ok (with_live m2 L3 (next m2)) /\ exact (with_live m2 L3 (next m2)) (own m ++ opt_of (follow m) ++ blocks_of m ++ e)).
  { destruct (near m) as [x|]; cbn [release_opt].
    - apply release_exact. eapply exact_perm; [|exact E2]. cbn [opt_of]. perm.
    - exists (live m2). destruct m2; split; trivial. }
  destruct B as (L3 & R3 & E3). rewrite R3. cbn [bind]. change (follow (with_live m2 L3 (next m2))) with (follow m2). rewrite Ff.
  assert (B : exists L4, release_opt (with_live m2 L3 (next m2)) (follow m) = Ok (with_live m2 L4 (next m2)) /\ exact (with_live m2 L4 (next m2)) (own m ++ blocks_of m ++ e)).
  { destruct (follow m) as [x|]; cbn [release_opt].
    - destruct (release_exact (with_live m2 L3 (next m2)) x (own m ++ blocks_of m ++ e)) as (L4 & R4 & E4).
      { eapply exact_perm; [|exact E3]. cbn [opt_of]. perm. }
      exists L4. split; [exact R4|exact E4].
    - exists L3. split; trivial. }
  destruct B as (L4 & R4 & E4). rewrite R4. cbn [bind]. change (own (with_live m2 L4 (next m2))) with (own m2). rewrite Oo.
  destruct (releases_exact (own m) (with_live m2 L4 (next m2)) (blocks_of m ++ e)) as (L5 & R5 & E5); [exact E4|].
  rewrite R5. cbn [bind]. eexists; split; [reflexivity|]. cbn. unfold blocks_of. cbn. rewrite Rr, Dd, Ll.
  split; [exact E5|]. repeat split.
Qed.
Lemma fail_ok {A} sz w b p m e st code text : idle w b p m e -> ok sz st -> p <> Some Pool -> code < 0 -> (length e <= 1)%nat ->
  (e <> [] -> code = -2 /\ text = no_name) ->
  (fail (A := A) m st code text = UB /\ fd st = true) \/ exists m', fail (A := A) m st code text = Ok (m', None) /\ dead w (fd st) sz m'.
Proof.
  intros H K Np C Le Ne. unfold fail. destruct (error_new_ok sz _ _ _ _ _ st code text H K) as [(G & F)|(m1 & G & H1 & On)]; rewrite G; cbn [bind]; [left; tauto|].
  right. destruct (stream_free_ok _ _ _ _ H1 Np) as (m2 & R & E & Re & Rest). rewrite R. cbn [bind]. eexists; split; [reflexivity|].
  exists e. split; trivial. decompose [and] Rest. repeat (split; trivial). unfold one in On. rewrite Re. destruct w; trivial.
  destruct On as (r & Er & Ec & Et & Ei). exists r. split; trivial. split; [lia|]. split; trivial. intros Z. destruct (Ne Z). subst. tauto.
Qed.
Lemma fail_report_ok {A} sz w b p m st code text : idle w b p m [] -> ok sz st -> p <> Some Pool -> code < 0 ->
  let f := m <- error_report m st code text ;; m <- stream_free m ;; Ok (m, @None A) in
  (f = UB /\ fd st = true) \/ exists m', f = Ok (m', None) /\ dead w (fd st) sz m'.
Proof.
  intros H K Np C. cbv zeta. destruct (error_report_ok sz _ _ _ _ _ st code text H K) as [(G & F)|(m1 & G & H1 & On)]; rewrite G; cbn [bind]; [left; tauto|].
  right. destruct (stream_free_ok _ _ _ _ H1 Np) as (m2 & R & E & Re & Rest). rewrite R. cbn [bind]. eexists; split; [reflexivity|].
  exists []. split; trivial. decompose [and] Rest. repeat (split; trivial); [cbn; lia|]. unfold one in On. rewrite Re. destruct w; trivial.
  destruct On as (r & Er & Ec & Et & Ei). exists r. split; trivial. split; [lia|]. split; trivial. congruence.
Qed.
