(** Reading a file that is converted: what an uninitialised variable can do. *)
From Coq Require Import NArith ZArith Lia.
From Verif Require Import Prelude Arr StrModel StrProofs StreamModel BabelModel BabelSpec BabelExec BabelProofs2 BdocModel BfileSpec BfileProofs BfileProofs2.
Open Scope Z_scope.
Open Scope list_scope.

Record stalled (t : table) (st : stream) : Prop := Stalled {
  sd_kind : exists f k, s_kind st = FDX (Some f) (HDecode t k false 2) /\ k_last k = O;
  sd_buf : 6 <= s_bufsize st <= Z.of_nat (length (s_buf st));
  sd_pos : 0 <= s_idx st <= s_size st;
  sd_size : s_size st <= s_bufsize st
}.
Lemma stalled_more t st : stalled t st -> exists st', prebuffer st = Ok (st', true) /\ stalled t st' /\ window st' = window st /\
  s_idx st' = 0 /\ s_size st' = s_size st - s_idx st.
Proof.
  intros [(f & k & K & Kl) B P Z1]. unfold prebuffer. rewrite K. unfold prebuffer_with. cbv zeta.
  destruct (ready_ok st false B P Z1 ltac:(discriminate)) as (b & bufsize & size & e0 & E & Wd & Sz & Lb & Szz & E0).
  match goal with |- context [bind ?x _] => replace x with (Ok (b, bufsize, size, e0)) by (symmetry; exact E) end. clear E. cbn [bind].
  assert (e0 = false) as -> by (destruct e0; trivial; discriminate (E0 eq_refl)).
  change (2 + length f)%nat with (S (S (length f))). rewrite loop_S, Kl. cbn [Nat.ltb Nat.leb bind negb]. change (2 =? 2) with true. cbv iota. cbn [bind].
  eexists. split; [reflexivity|]. split; [|split; [rewrite window_start by reflexivity; exact Wd|split; [reflexivity|exact Szz]]].
  split; cbn [s_kind s_buf s_bufsize s_size s_idx]; [exists f, k; auto|lia|lia|lia].
Qed.
Lemma stalled_for_ever t m : forall st, stalled t st -> exists st', run (repeat More m) st = Ok ([], st') /\ window st' = window st.
Proof.
  induction m as [|m IH]; intros st D; cbn [repeat run]; [exists st; auto|].
  destruct (stalled_more t st D) as (st1 & E & D1 & W & _). rewrite E. cbn [bind]. destruct (IH st1 D1) as (st' & E' & W'). exists st'. split; [exact E'|congruence].
Qed.
Lemma stalled_window t st : stalled t st -> Z.of_nat (length (window st)) = s_size st - s_idx st.
Proof. intros [_ B P S]. unfold window. rewrite firstn_length, skipn_length. lia. Qed.
(** a search for a byte that is not in the window does not end *)
Lemma window_at t st i : stalled t st -> 0 <= i < s_size st - s_idx st -> exists d, rd (s_buf st) (s_idx st + i) = Ok d /\ In d (window st).
Proof.
  intros D I. pose proof (stalled_window t st D) as L. destruct D as [_ B P S].
  destruct (nth_error (window st) (Z.to_nat i)) as [d|] eqn:E; [|apply nth_error_None in E; lia]. exists d. split; [|eapply nth_error_In; exact E].
  unfold window in E. unfold rd. destruct (Z.ltb_spec (s_idx st + i) 0); [lia|].
  assert (X : nth_error (s_buf st) (Z.to_nat (s_idx st + i)) = Some d).
  { replace (Z.to_nat (s_idx st + i)) with (Z.to_nat (s_idx st) + Z.to_nat i)%nat by lia. revert E.
    generalize (Z.to_nat (s_size st - s_idx st)) (Z.to_nat (s_idx st)) (Z.to_nat i) (s_buf st). clear.
    intros n m i l E. assert (X : nth_error (skipn m l) i = Some d).
    { revert n i E. generalize (skipn m l). clear. intros l. induction l as [|a l IH]; intros n i E; destruct n, i; cbn in *; try discriminate; trivial. exact (IH _ _ E). }
    clear E. revert m X. induction l as [|a l IH]; intros m X; destruct m; cbn in *; trivial. - destruct i; discriminate. - exact (IH _ X). }
  rewrite X. reflexivity.
Qed.
Lemma no_match t st c i : stalled t st -> ws_chunk [c] = false -> ~ In c (window st) -> 0 <= i ->
  match_at [[c]] (s_buf st) (s_size st) (s_idx st + i) = Ok None.
Proof.
  intros D Hc N I. unfold match_at. cbn [existsb]. rewrite Hc. cbn [orb bind]. cbn [match_chunks].
  unfold chunk_len. rewrite Hc. change (Z.of_nat (length [c])) with 1. change (0 <? 1) with true. cbn [andb].
  destruct (Z.leb_spec (s_idx st + i + 1) (s_size st)) as [L|L]; [|reflexivity].
  destruct (window_at t st i D ltac:(lia)) as (d & R & J). rewrite R. cbn [bind]. change (rd (cs [c]) 0) with (Ok c). cbn [bind].
  destruct (Ascii.eqb_spec c d) as [->|_]; [contradiction|reflexivity].
Qed.
Lemma search_stalled t c accept by_ref : ws_chunk [c] = false -> forall fuel st i remains, stalled t st -> ~ In c (window st) -> 0 <= i ->
  until_loop fuel st [[c]] accept by_ref i remains false = NoFuel.
Proof.
  intros Hc. induction fuel as [|fuel IH]; intros st i remains D N I; [reflexivity|]. cbn [until_loop].
  pose proof D as [(f & k & K & _) _ _ _]. rewrite K. cbv zeta. destruct (Z.ltb_spec (remains - 1) 0) as [L|L].
  - destruct (stalled_more t st D) as (st1 & E & D1 & W & _). rewrite E. cbn [bind]. rewrite <- W in N.
    assert (I1 : 0 <= (if 0 <? i then i - 1 else i)) by (destruct (Z.ltb_spec 0 i); lia). set (i1 := if 0 <? i then i - 1 else i) in *. clearbody i1.
    rewrite (no_match t st1 c i1 D1 Hc N I1). cbn [bind]. apply IH; trivial. lia.
  - cbn [bind]. rewrite (no_match t) by trivial. cbn [bind]. apply IH; trivial. lia.
Qed.
(** the conversion set up in a file *)
Lemma setup_stalled t content n : full t -> Z.of_nat n <= Z.min buffer_size (Z.of_nat (length content)) -> content <> [] ->
  (forall c, In c (skipn n (firstn (Z.to_nat buffer_size) content)) -> length (written t c) = 1%nat) ->
  exists st0 st, stream_file content = Ok st0 /\ s_size st0 = Z.min buffer_size (Z.of_nat (length content)) /\
    setup_decode 2 (stream_move st0 (Z.of_nat n)) t = Ok (Some st) /\
    stalled t st /\ window st = transcode t (skipn n (firstn (Z.to_nat buffer_size) content)).
Proof.
  intros F Hn Hb Hs. destruct (opened_ok content) as (st0 & E0 & K & Lb & Bs & I & Sz & W). exists st0.
  assert (Bz : 6 <= buffer_size) by (vm_compute; discriminate).
  unfold setup_decode. cbn [stream_move stream_accept set_pos s_kind s_buf s_bufsize s_size s_idx s_prev]. rewrite Bs. rewrite Sz in *.
  set (bs := buffer_size) in *. clearbody bs. set (sz := Z.min bs (Z.of_nat (length content))) in *.
  set (w := skipn n (firstn (Z.to_nat sz) (s_buf st0))).
  assert (Lf : length (firstn (Z.to_nat sz) (s_buf st0)) = Z.to_nat sz) by (rewrite firstn_length; lia).
  assert (Lw : length w = (Z.to_nat sz - n)%nat) by (unfold w; rewrite skipn_length, Lf; reflexivity).
  assert (M : mem_sub (s_buf st0) (Z.of_nat n) (sz - Z.of_nat n) = Ok w).
  { unfold mem_sub. destruct (Z.ltb_spec (Z.of_nat n) 0); [lia|]. destruct (Z.ltb_spec (sz - Z.of_nat n) 0); [lia|]. cbn [orb].
    destruct (Z.ltb_spec (Z.of_nat (length (s_buf st0))) (Z.of_nat n + (sz - Z.of_nat n))); [lia|]. unfold w. rewrite skipn_firstn_comm, Nat2Z.id.
    f_equal. f_equal. lia. }
  rewrite M. cbn [bind]. rewrite memcpy_ok by (rewrite ?repeat_length; lia). cbn [bind]. change (Z.to_nat 0) with O. cbn [firstn app Nat.add].
  rewrite ptr_ok by lia. cbn [bind]. rewrite Nat2Z.id. set (zs := skipn (length w) _).
  destruct (decode_ok t (Decoder (w ++ zs) (length w) 0) (skipn n (s_buf st0)) (Z.to_nat (bs - Z.of_nat n)) F) as (j & k' & out' & N1 & E & Sn & Tp & Pk & O & N2 & N3).
  { unfold sane. cbn [k_last k_temp]. rewrite app_length. lia. }
  { rewrite skipn_length. lia. }
  assert (Pd : pending (Decoder (w ++ zs) (length w) 0) = w) by (unfold pending; cbn [k_last k_temp]; apply firstn_app_len).
  rewrite Pd in *. cbn [k_last k_temp] in *. rewrite E. cbn [bind]. eexists. split; [exact E0|]. split; [reflexivity|]. split; [reflexivity|].
  assert (Ew : w = skipn n (firstn (Z.to_nat bs) content)) by (unfold w; rewrite W; reflexivity). rewrite <- Ew in *.
  assert (Ls : forall l, (forall c, In c l -> length (written t c) = 1%nat) -> length (transcode t l) = length l).
  { clear. induction l as [|c l IH]; intros H; [reflexivity|]. rewrite transcode_cons, app_length, (H c (or_introl eq_refl)), IH; [reflexivity|]. intros d X. apply H. right. exact X. }
  assert (J : j = length w).
  { destruct (Nat.eq_dec j (length w)) as [|X]; trivial. exfalso. specialize (N3 ltac:(lia)). rewrite Ls in N3.
    - rewrite firstn_length in N3. lia.
    - intros c C. apply Hs. rewrite <- (firstn_skipn (S j) w). apply in_or_app. left. exact C. }
  subst j. rewrite firstn_all in *. rewrite skipn_all in Pk. pose proof (lp k' Sn) as Lk. rewrite Pk in Lk. cbn [length] in Lk. pose proof (Ls w Hs) as Lt.
  split.
  - split; cbn [s_kind s_buf s_bufsize s_size s_idx].
    + rewrite K. cbn [with_handler]. destruct content as [|c content]; [contradiction|]. eexists _, k'. split; [reflexivity|]. symmetry. exact Lk.
    + rewrite O, !app_length, !skipn_length, firstn_length. lia.
    + lia.
    + lia.
  - unfold window. cbn [s_buf s_size s_idx]. rewrite Nat2Z.id, Z.add_simpl_r, Nat2Z.id.
    rewrite skipn_app, firstn_length, skipn_firstn_comm. replace (Nat.min n (length (s_buf st0))) with n by lia. rewrite Nat.sub_diag. cbn [firstn app skipn]. rewrite O. apply firstn_app_len.
Qed.
Lemma converting_stalled t content n st : full t -> converting t 2 content n st -> content <> [] ->
  (forall c, In c (skipn n (firstn (Z.to_nat buffer_size) content)) -> length (written t c) = 1%nat) ->
  stalled t st /\ window st = transcode t (skipn n (firstn (Z.to_nat buffer_size) content)).
Proof.
  intros F (st0 & E0 & L & E) Hb Hs. destruct (opened_ok content) as (st0' & E0' & K & Lb & Bs & I & Sz & W).
  rewrite E0 in E0'. injection E0' as <-. rewrite Sz in L.
  destruct (setup_stalled t content n F L Hb Hs) as (st1 & st' & E1 & _ & E2 & H). rewrite E0 in E1. injection E1 as <-. rewrite E in E2. injection E2 as <-. exact H.
Qed.
Lemma stopped t content n st : full t -> converting t 2 content n st -> content <> [] ->
  (forall c, In c (skipn n (firstn (Z.to_nat buffer_size) content)) -> length (written t c) = 1%nat) ->
  let first := transcode t (skipn n (firstn (Z.to_nat buffer_size) content)) in
  window st = first /\ (forall m, exists st', run (repeat More m) st = Ok ([], st') /\ window st' = first) /\
  (forall c accept, c <> " "%char -> ~ In c first -> forall fuel, until_loop fuel st [[c]] accept false 0 (s_size st - s_idx st) false = NoFuel).
Proof.
  intros F C Hb Hs. cbv zeta. destruct (converting_stalled t content n st F C Hb Hs) as (D & W). rewrite <- W. split; [reflexivity|]. split.
  - intros m. exact (stalled_for_ever t m st D).
  - intros c accept Hc N fuel. apply (search_stalled t); trivial; [|lia]. unfold ws_chunk. cbn. destruct (Ascii.eqb_spec c " "%char); [contradiction|reflexivity].
Qed.
