(** Reading a file that is converted: histories. *)
From Coq Require Import NArith ZArith Lia.
From Verif Require Import Prelude Arr StrModel StrProofs StreamModel BabelModel BabelSpec BabelExec BabelProofs2 BdocModel BfileSpec BfileProofs.
Open Scope Z_scope.
Open Scope list_scope.

Record good (t : table) (st : stream) (rest : bytes) : Prop := Good {
  gd_kind : exists file k e g, s_kind st = FDX file (HDecode t k e g) /\ g <> 2 /\ sane k /\ (0 < length (k_temp k))%nat /\
    (file = None -> k_last k = O) /\ rest = pending k ++ left_of file;
  gd_buf : 6 <= s_bufsize st <= Z.of_nat (length (s_buf st));
  gd_pos : 0 <= s_idx st <= s_size st;
  gd_size : s_size st <= s_bufsize st
}.
Lemma window_start st : s_idx st = 0 -> window st = firstn (Z.to_nat (s_size st)) (s_buf st).
Proof. intros H. unfold window. rewrite H, Z.sub_0_r. reflexivity. Qed.
Lemma window_len t st rest : good t st rest -> Z.of_nat (length (window st)) = s_size st - s_idx st.
Proof. intros [_ B P S]. unfold window. rewrite firstn_length, skipn_length. lia. Qed.
Lemma firstn_in {A} n (a b : list A) : (n <= length a)%nat -> firstn n (a ++ b) = firstn n a.
Proof. intros H. rewrite firstn_app. replace (n - length a)%nat with O by lia. rewrite firstn_O. apply app_nil_r. Qed.

(** the buffer made ready *)
Lemma ready_ok st e : 6 <= s_bufsize st <= Z.of_nat (length (s_buf st)) -> 0 <= s_idx st <= s_size st -> s_size st <= s_bufsize st ->
  (e = true -> s_size st <> s_idx st \/ s_idx st = 0) ->
  exists b bufsize size e', 
  (if (0 <? s_idx st) && (0 <? s_size st - s_idx st) then
       tmp <- mem_sub (s_buf st) (s_idx st) (s_size st - s_idx st) ;;
       b <- memcpy_to (s_buf st) 0 tmp ;;
       Ok (b, s_bufsize st, s_size st - s_idx st, e)
     else if (s_size st =? s_bufsize st) && (s_idx st =? 0) || e then
       Ok (s_buf st ++ repeat NUL (Z.to_nat (s_bufsize st)), s_bufsize st + s_bufsize st, s_size st, false)
     else Ok (s_buf st, s_bufsize st, if s_size st =? s_idx st then 0 else s_size st, e)) = Ok (b, bufsize, size, e') /\
  firstn (Z.to_nat size) b = window st /\ 0 <= size < bufsize /\ s_bufsize st <= bufsize <= Z.of_nat (length b) /\
  size = s_size st - s_idx st /\ (e' = true -> e = true).
Proof.
  intros B P S E. destruct (Z.ltb_spec 0 (s_idx st)) as [L1|L1]; [destruct (Z.ltb_spec 0 (s_size st - s_idx st)) as [L2|L2]|]; cbn [andb].
  - assert (M : mem_sub (s_buf st) (s_idx st) (s_size st - s_idx st) = Ok (window st)).
    { unfold mem_sub, window. destruct (Z.ltb_spec (s_idx st) 0); [lia|]. destruct (Z.ltb_spec (s_size st - s_idx st) 0); [lia|]. cbn [orb].
      destruct (Z.ltb_spec (Z.of_nat (length (s_buf st))) (s_idx st + (s_size st - s_idx st))); [lia|]. reflexivity. }
    rewrite M. cbn [bind]. assert (Lw : Z.of_nat (length (window st)) = s_size st - s_idx st) by (unfold window; rewrite firstn_length, skipn_length; lia).
    rewrite memcpy_ok by lia. cbn [bind]. change (Z.to_nat 0) with O. cbn [firstn app Nat.add].
    eexists _, _, _, _. split; [reflexivity|]. split; [rewrite <- Lw, Nat2Z.id; apply firstn_app_len|]. split; [lia|].
    split; [rewrite app_length, skipn_length; lia|]. auto.
  - assert (Ez : s_size st = s_idx st) by lia. assert (e = false) as -> by (destruct e; trivial; destruct (E eq_refl); lia).
    destruct (Z.eqb_spec (s_idx st) 0); [lia|]. rewrite andb_false_r. cbn [orb]. rewrite Ez, Z.eqb_refl.
    eexists _, _, _, _. split; [reflexivity|]. split; [unfold window; rewrite Ez, Z.sub_diag; reflexivity|]. split; [lia|]. split; [lia|]. split; [lia|auto].
  - assert (Ei : s_idx st = 0) by lia. rewrite (window_start st Ei), Ei. change (0 =? 0) with true. rewrite andb_true_r.
    destruct (Z.eqb_spec (s_size st) (s_bufsize st)) as [Q|Q]; cbn [orb]; [|destruct e].
    1-2: eexists _, _, _, _; split; [reflexivity|]; split; [apply firstn_in; lia|]; split; [lia|]; split; [rewrite app_length, repeat_length; lia|]; split; [lia|]; discriminate.
    eexists _, _, _, _. split; [reflexivity|]. destruct (Z.eqb_spec (s_size st) 0) as [Q0|Q0].
    + rewrite Q0. split; [reflexivity|]. split; [lia|]. split; [lia|]. split; [lia|auto].
    + split; [reflexivity|]. split; [lia|]. split; [lia|]. split; [lia|auto].
Qed.
Lemma more_ok t st rest : full t -> good t st rest -> (flagged st -> window st <> []) ->
  exists st' b read rest', prebuffer st = Ok (st', b) /\ good t st' rest' /\ rest = read ++ rest' /\
    window st' = window st ++ transcode t read /\ (b = false -> rest = []) /\ (window st = [] -> read <> [] \/ rest' = []) /\
    (closed st' -> rest' = []) /\
    (flagged st' -> flagged st \/ exists c, In c rest /\ (2 <= length (written t c))%nat).
Proof.
  intros F G Fl. pose proof (window_len t st rest G) as Lw. destruct G as [(file & k & e & g & K & Hg & Sn & Tp & Cl & R) B P S]. unfold prebuffer. rewrite K.
  destruct file as [f|].
  2: { assert (rest = []) as ->. { rewrite R. cbn [left_of]. unfold pending. rewrite (Cl eq_refl). reflexivity. }
       exists st, false, [], []. split; [reflexivity|]. split; [split; trivial; exists None, k, e, g; auto 8|]. split; [reflexivity|]. split; [cbn; rewrite app_nil_r; reflexivity|].
       split; [reflexivity|]. split; [intros _; right; reflexivity|]. split; [reflexivity|]. auto. }
  unfold prebuffer_with. cbv zeta.
  assert (He : e = true -> s_size st <> s_idx st \/ s_idx st = 0).
  { intros ->. left. unfold flagged in Fl. rewrite K in Fl. specialize (Fl Logic.I). destruct (window st); [contradiction|]. cbn [length] in Lw. lia. }
  destruct (ready_ok st e B P S He) as (b & bufsize & size & e0 & E & Wd & Sz & Lb & Szz & E0).
  match goal with |- context [bind ?x _] => replace x with (Ok (b, bufsize, size, e0)) by (symmetry; exact E) end. clear E. cbn [bind].
  destruct (loop_ok t bufsize F (2 + length f) k e0 f b size g Sn Tp ltac:(lia) ltac:(lia) ltac:(lia) (fun _ => Hg)) as (k' & e' & file' & b' & size' & D & E & Br).
  match goal with |- context [bind ?x _] => replace x with (Ok (k', e', file', b', size', true)) by (symmetry; exact E) end. cbn [bind]. clear E. destruct Br as [B1 B2 B3 B4 B5 B6 (read & B7 & B8) B9 B10 B11]. cbn [left_of] in *.
  eexists _, true, read, (pending k' ++ left_of file'). split; [reflexivity|].
  split; [|split; [congruence|]].
  { split; cbn [s_kind s_buf s_bufsize s_size s_idx].
    - exists file', k', e', g. repeat (split; [first [reflexivity|assumption|lia|congruence]|]). reflexivity.
    - lia.
    - lia.
    - lia. }
  split; [|split; [discriminate|]].
  { rewrite window_start by reflexivity. cbn [s_size s_buf]. rewrite B6, Wd, B8. reflexivity. }
  split; [|split].
  - intros W0. rewrite W0 in Lw. cbn [length] in Lw. destruct (B11 ltac:(lia)) as [N|N].
    + right. rewrite N. cbn [left_of]. unfold pending. rewrite (B9 N). reflexivity.
    + left. intros X. subst read D. apply N. reflexivity.
  - unfold closed. cbn [s_kind]. destruct file' as [f'|]; [contradiction|]. intros _. cbn [left_of]. unfold pending. rewrite (B9 eq_refl). reflexivity.
  - unfold flagged at 1. cbn [s_kind]. destruct e'; [|contradiction]. intros _. destruct (B10 eq_refl) as [N|[N|N]].
    + left. unfold flagged. rewrite K, (E0 N). exact Logic.I.
    + lia.
    + right. destruct N as (c & N1 & N2). exists c. rewrite R. auto.
Qed.
Lemma take_ok t st rest n : good t st rest -> (n <= length (window st))%nat ->
  good t (stream_move st (s_idx st + Z.of_nat n)) rest /\
  window st = firstn n (window st) ++ window (stream_move st (s_idx st + Z.of_nat n)).
Proof.
  intros G L. pose proof (window_len t st rest G) as Lw. destruct G as [K B P S]. split.
  - split; cbn; trivial; lia.
  - unfold window, stream_move, stream_accept, set_pos in *. cbn [s_size s_idx s_buf] in *.
    set (w := skipn (Z.to_nat (s_idx st)) (s_buf st)) in *.
    replace (skipn (Z.to_nat (s_idx st + Z.of_nat n)) (s_buf st)) with (skipn n w).
    2: { unfold w. replace (Z.to_nat (s_idx st + Z.of_nat n)) with (Z.to_nat (s_idx st) + n)%nat by lia.
         generalize (Z.to_nat (s_idx st)) (s_buf st). intros m. induction m as [|m IHm]; intros l; [reflexivity|]. destruct l; [cbn; destruct n; reflexivity|apply IHm]. }
    rewrite firstn_length in Lw. rewrite firstn_firstn. rewrite firstn_length in L. rewrite Nat.min_l by lia.
    rewrite <- (firstn_skipn n w) at 1. rewrite firstn_app, firstn_firstn, firstn_length.
    replace (Nat.min (Z.to_nat (s_size st - s_idx st)) n) with n by lia. f_equal. f_equal. lia.
Qed.
Lemma careful_ok t : full t -> forall acts st rest, good t st rest -> always careful acts st ->
  exists out st' read rest', run acts st = Ok (out, st') /\ good t st' rest' /\ rest = read ++ rest' /\
    out ++ window st' = window st ++ transcode t read.
Proof.
  intros F acts. induction acts as [|[n|] acts IH]; intros st rest G A; cbn [run always] in *.
  - exists [], st, [], rest. split; [reflexivity|]. split; [exact G|]. split; [reflexivity|]. cbn. rewrite app_nil_r. reflexivity.
  - destruct A as (A1 & A2). cbn [careful] in A1. destruct (take_ok t st rest n G A1) as (G1 & W).
    destruct (IH _ _ G1 A2) as (out & st' & read & rest' & E & G' & R & O). rewrite E. cbn [bind].
    eexists _, st', read, rest'. split; [reflexivity|]. split; [exact G'|]. split; [exact R|]. rewrite <- app_assoc, O, app_assoc, <- W. reflexivity.
  - destruct A as (A1 & A2). destruct (more_ok t st rest F G A1) as (st1 & b & read1 & rest1 & E1 & G1 & R1 & W1 & _). rewrite E1. cbn [bind].
    destruct (IH _ _ G1 (A2 _ _ E1)) as (out & st' & read & rest' & E & G' & R & O).
    exists out, st', (read1 ++ read), rest'. split; [exact E|]. split; [exact G'|]. split; [rewrite R1, R, app_assoc; reflexivity|].
    rewrite O, W1, transcode_app, app_assoc. reflexivity.
Qed.
(** readers that are careful *)
Lemma keeping_careful t : full t -> forall acts st rest, good t st rest -> (flagged st -> window st <> []) -> always keeping acts st -> always careful acts st.
Proof.
  intros F acts. induction acts as [|[n|] acts IH]; intros st rest G Fl A; cbn [always] in *; trivial.
  - destruct A as (A1 & A2). cbn [keeping careful] in *. destruct (take_ok t st rest n G ltac:(lia)) as (G1 & W). split; [lia|].
    apply (IH _ rest G1); [|exact A2]. intros _ X. rewrite X, app_nil_r in W. apply (f_equal (@length _)) in W. rewrite firstn_length in W. lia.
  - destruct A as (_ & A2). split; [exact Fl|]. intros st' b E. destruct (more_ok t st rest F G Fl) as (st1 & b1 & read1 & rest1 & E1 & G1 & R1 & W1 & B0 & M1 & C1 & Fl2).
    rewrite E1 in E. injection E as <- <-. apply (IH _ rest1 G1); [|exact (A2 _ _ E1)]. intros Fl1 X.
    rewrite X in W1. symmetry in W1. apply app_eq_nil in W1. destruct W1 as (W1 & W2). apply transcode_none in W2; trivial. subst read1.
    destruct (M1 W1) as [|M]; [contradiction|]. subst rest1. cbn [app] in R1. subst rest.
    destruct (Fl2 Fl1) as [Y|(c & [] & _)]. exact (Fl Y W1).
Qed.
Lemma single_careful t : full t -> forall acts st rest, good t st rest -> ~ flagged st -> (forall c, In c rest -> length (written t c) = 1%nat) ->
  always inside acts st -> always careful acts st.
Proof.
  intros F acts. induction acts as [|[n|] acts IH]; intros st rest G Fl H A; cbn [always] in *; trivial.
  - destruct A as (A1 & A2). cbn [inside careful] in *. destruct (take_ok t st rest n G A1) as (G1 & W). split; [exact A1|].
    apply (IH _ rest G1); trivial.
  - destruct A as (_ & A2). assert (Fl' : flagged st -> window st <> []) by (intros X; contradiction). split; [exact Fl'|].
    intros st' b E. destruct (more_ok t st rest F G Fl') as (st1 & b1 & read1 & rest1 & E1 & G1 & R1 & W1 & B0 & M1 & C1 & Fl2).
    rewrite E1 in E. injection E as <- <-. apply (IH _ rest1 G1); [| |exact (A2 _ _ E1)].
    + intros X. destruct (Fl2 X) as [Y|(c & Y1 & Y2)]; [contradiction|]. rewrite (H c Y1) in Y2. lia.
    + intros c I0. apply H. rewrite R1. apply in_or_app. auto.
Qed.
(** the reader that takes all there is *)
Lemma drain_ok t : full t -> forall m st rest, good t st rest -> ~ flagged st -> (forall c, In c rest -> length (written t c) = 1%nat) ->
  (length rest < m)%nat -> exists st', drain m st = Ok (window st ++ transcode t rest, st').
Proof.
  intros F m. induction m as [|m IH]; intros st rest G Fl H L; [lia|]. cbn [drain].
  pose proof (window_len t st rest G) as Lw. destruct (take_ok t st rest (length (window st)) G (le_n _)) as (G1 & W).
  rewrite firstn_all in W. assert (W1 : window (stream_move st (s_idx st + Z.of_nat (length (window st)))) = []).
  { apply (f_equal (@length _)) in W. rewrite app_length in W. apply length_zero_iff_nil. lia. }
  replace (s_idx st + Z.of_nat (length (window st))) with (s_size st) in * by lia.
  destruct (more_ok t _ rest F G1) as (st1 & b1 & read1 & rest1 & E1 & G2 & R1 & W2 & B0 & M1 & C1 & Fl2).
  { intros X. exfalso. exact (Fl X). }
  rewrite E1. cbn [bind]. rewrite W1 in W2. cbn [app] in W2.
  assert (Fl3 : ~ flagged st1). { intros X. destruct (Fl2 X) as [Y|(c & Y1 & Y2)]; [exact (Fl Y)|]. rewrite (H c Y1) in Y2. lia. }
  assert (H1 : forall c, In c rest1 -> length (written t c) = 1%nat) by (intros c I0; apply H; rewrite R1; apply in_or_app; auto).
  destruct m as [|m].
  - assert (R0 : rest = []) by (destruct rest; [reflexivity|cbn in L; lia]). rewrite R0 in R1 |- *. symmetry in R1. apply app_eq_nil in R1. destruct R1 as (-> & ->).
    cbn [drain bind]. rewrite app_nil_r. eexists. cbn. rewrite app_nil_r. reflexivity.
  - destruct (M1 W1) as [M|M].
    + destruct (IH st1 rest1 G2 Fl3 H1) as (st' & E). { rewrite R1, app_length in L. destruct read1; [contradiction|]. cbn [length] in L. lia. }
      rewrite E. cbn [bind]. eexists. rewrite W2, R1, transcode_app. reflexivity.
    + destruct (IH st1 rest1 G2 Fl3 H1) as (st' & E). { rewrite M. cbn. lia. }
      rewrite E. cbn [bind]. eexists. rewrite W2, R1, transcode_app. reflexivity.
Qed.
(** the start *)
Lemma opened_ok content : exists st0, stream_file content = Ok st0 /\ s_kind st0 = FD (match content with [] => None | _ => Some (skipn (Z.to_nat buffer_size) content) end) /\ length (s_buf st0) = Z.to_nat (buffer_size + 1) /\ s_bufsize st0 = buffer_size /\ s_idx st0 = 0 /\ s_size st0 = Z.min buffer_size (Z.of_nat (length content)) /\ firstn (Z.to_nat (s_size st0)) (s_buf st0) = firstn (Z.to_nat buffer_size) content.
Proof.
  unfold stream_file, prebuffer. cbn [s_kind s_buf s_bufsize s_size s_idx s_prev]. change (0 <? 0) with false. cbn [andb].
  change (0 =? buffer_size) with false. cbn [andb bind]. change (0 =? 0) with true. cbv iota. rewrite Z.sub_0_r.
  assert (Lz : length (repeat NUL (Z.to_nat buffer_size + 1)) = Z.to_nat (buffer_size + 1)) by (rewrite repeat_length; change (buffer_size + 1) with (Z.succ buffer_size); rewrite Z2Nat.inj_succ; [lia|discriminate]).
  set (zs := repeat NUL (Z.to_nat buffer_size + 1)) in *. clearbody zs.
  assert (Bs : 0 < buffer_size) by reflexivity. generalize buffer_size Bs Lz. clear. intros bs Bs Lz.
  set (data := firstn (Z.to_nat bs) content). assert (Ld : length data = Nat.min (Z.to_nat bs) (length content)) by apply firstn_length.
  rewrite memcpy_ok by lia. cbn [bind]. change (Z.to_nat 0) with O. cbn [firstn app Nat.add].
  assert (Lb : length (data ++ skipn (length data) zs) = Z.to_nat (bs + 1)) by (rewrite app_length, skipn_length; lia).
  destruct data as [|c data'] eqn:Ed.
  - assert (content = []) as -> by (destruct content; trivial; cbn [length] in Ld; lia). cbn [bind]. eexists. split; [reflexivity|].
    cbn [s_kind s_buf s_bufsize s_size s_idx length]. split; [reflexivity|]. split; [exact Lb|]. split; [reflexivity|]. split; [reflexivity|]. split; [cbn; lia|].
    reflexivity.
  - assert (Hc : exists c0 r, content = c0 :: r) by (destruct content; [cbn [length] in Ld; lia|eauto]). destruct Hc as (c0 & r0 & Hc).
    clear Ed. clear data. set (data := c :: data') in *. clearbody data. cbn [bind]. eexists. split; [reflexivity|]. cbn [s_kind s_buf s_bufsize s_size s_idx].
    split; [rewrite Hc at 2; f_equal; f_equal; rewrite Ld; destruct (Nat.le_ge_cases (Z.to_nat bs) (length content)); [rewrite Nat.min_l by lia; reflexivity|rewrite Nat.min_r by lia; rewrite !skipn_all2 by lia; reflexivity]|].
    split; [exact Lb|]. split; [reflexivity|]. split; [reflexivity|]. split; [lia|]. rewrite Z.add_0_l, Nat2Z.id. apply firstn_app_len.
Qed.
Lemma setup_ok t g content n : full t -> Z.of_nat n <= Z.min buffer_size (Z.of_nat (length content)) ->
  exists st0 st, stream_file content = Ok st0 /\ s_size st0 = Z.min buffer_size (Z.of_nat (length content)) /\
    setup_decode g (stream_move st0 (Z.of_nat n)) t = Ok (Some st) /\ ~ flagged st /\
    (g <> 2 -> exists read rest, skipn n content = read ++ rest /\ good t st rest /\ window st = transcode t read).
Proof.
  intros F Hn. destruct (opened_ok content) as (st0 & E0 & K & Lb & Bs & I & Sz & W). exists st0.
  assert (Bz : 6 <= buffer_size) by (vm_compute; discriminate).
  unfold setup_decode. cbn [stream_move stream_accept set_pos s_kind s_buf s_bufsize s_size s_idx s_prev]. rewrite Bs. rewrite Sz in *.
  set (bs := buffer_size) in *. clearbody bs. set (sz := Z.min bs (Z.of_nat (length content))) in *.
  set (w := skipn n (firstn (Z.to_nat sz) (s_buf st0))).
  assert (Lf : length (firstn (Z.to_nat sz) (s_buf st0)) = Z.to_nat sz) by (rewrite firstn_length; lia).
  assert (Lw : length w = (Z.to_nat sz - n)%nat) by (unfold w; rewrite skipn_length, Lf; reflexivity).
  assert (M : mem_sub (s_buf st0) (Z.of_nat n) (sz - Z.of_nat n) = Ok w).
  { unfold mem_sub. destruct (Z.ltb_spec (Z.of_nat n) 0); [lia|]. destruct (Z.ltb_spec (sz - Z.of_nat n) 0); [lia|]. cbn [orb].
    destruct (Z.ltb_spec (Z.of_nat (length (s_buf st0))) (Z.of_nat n + (sz - Z.of_nat n))); [lia|]. unfold w. rewrite skipn_firstn_comm, Nat2Z.id.
    f_equal. f_equal. lia. }
  rewrite M. cbn [bind]. rewrite memcpy_ok by (rewrite ?repeat_length; lia). cbn [bind]. change (Z.to_nat 0) with O. cbn [firstn app Nat.add].
  rewrite ptr_ok by lia. cbn [bind]. rewrite Nat2Z.id. set (zs := skipn (length w) _).
  destruct (decode_ok t (Decoder (w ++ zs) (length w) 0) (skipn n (s_buf st0)) (Z.to_nat (bs - Z.of_nat n)) F) as (j & k' & out' & N1 & E & Sn & Tp & Pk & O & N2 & N3).
  { unfold sane. cbn [k_last k_temp]. rewrite app_length. lia. }
  { rewrite skipn_length. lia. }
  assert (Pd : pending (Decoder (w ++ zs) (length w) 0) = w) by (unfold pending; cbn [k_last k_temp]; apply firstn_app_len).
  rewrite Pd in *. cbn [k_last k_temp] in *. rewrite E. cbn [bind]. eexists. split; [exact E0|]. split; [reflexivity|]. split; [reflexivity|].
  split; [unfold flagged; cbn [s_kind]; rewrite K; cbn [with_handler]; auto|]. intros Hg.
  exists (firstn j w), (skipn j w ++ skipn (Z.to_nat bs) content).
  assert (Lo : length (firstn n (s_buf st0) ++ out') = length (s_buf st0)).
  { rewrite O, !app_length, !skipn_length, firstn_length. lia. }
  assert (G : good t (Stream (with_handler (s_kind st0) (HDecode t k' false g)) (firstn n (s_buf st0) ++ out') bs (Z.of_nat (length (transcode t (firstn j w))) + Z.of_nat n) (Z.of_nat n) 0)
     (skipn j w ++ skipn (Z.to_nat bs) content)).
  { split; cbn [s_kind s_buf s_bufsize s_size s_idx].
    - rewrite K. eexists _, k', false, g. cbn [with_handler]. split; [reflexivity|]. split; [exact Hg|]. split; [exact Sn|].
      split; [rewrite Tp, app_length; unfold zs; rewrite skipn_length, repeat_length; lia|].
      split.
      + destruct content; [|discriminate]. intros _. pose proof (lp k' Sn) as X. rewrite Pk, skipn_length, Lw in X. cbn [length] in sz. lia.
      + rewrite Pk. f_equal. destruct content; [rewrite skipn_nil|]; reflexivity.
    - lia.
    - lia.
    - lia. }
  split; [|split; [exact G|]].
  - rewrite app_assoc, firstn_skipn. unfold w. rewrite W. rewrite <- (firstn_skipn (Z.to_nat bs) content) at 1. rewrite skipn_app.
    f_equal. rewrite firstn_length. replace (n - Nat.min (Z.to_nat bs) (length content))%nat with 0%nat by lia. reflexivity.
  - unfold window. cbn [s_buf s_size s_idx]. rewrite Nat2Z.id, Z.add_simpl_r, Nat2Z.id.
    rewrite skipn_app, firstn_length, skipn_firstn_comm. replace (Nat.min n (length (s_buf st0))) with n by lia. rewrite Nat.sub_diag. cbn [firstn app skipn]. rewrite O. apply firstn_app_len.
Qed.
Lemma converting_good t g content n st : full t -> g <> 2 -> converting t g content n st ->
  ~ flagged st /\ exists read rest, skipn n content = read ++ rest /\ good t st rest /\ window st = transcode t read.
Proof.
  intros F Hg (st0 & E0 & L & E). destruct (opened_ok content) as (st0' & E0' & K & Lb & Bs & I & Sz & W).
  rewrite E0 in E0'. injection E0' as <-. rewrite Sz in L.
  destruct (setup_ok t g content n F L) as (st1 & st' & E1 & _ & E2 & Fl & H). rewrite E0 in E1. injection E1 as <-. rewrite E in E2. injection E2 as <-. auto.
Qed.
Lemma converting_exists t g content n : full t -> (n <= length content)%nat -> Z.of_nat n <= buffer_size -> exists st, converting t g content n st.
Proof.
  intros F H1 H2. destruct (setup_ok t g content n F ltac:(lia)) as (st0 & st & E0 & Sz & E & _). exists st, st0. split; [exact E0|]. split; [lia|exact E].
Qed.

(** ** the theorems *)
Lemma delivered t g content n st acts : full t -> g <> 2 -> converting t g content n st -> always careful acts st ->
  exists out st' read rest, run acts st = Ok (out, st') /\ skipn n content = read ++ rest /\ out ++ window st' = transcode t read /\
    (closed st' -> rest = []).
Proof.
  intros F Hg C A. destruct (converting_good _ _ _ _ _ F Hg C) as (Fl & read0 & rest0 & R0 & G & W0).
  destruct (careful_ok t F acts st rest0 G A) as (out & st' & read & rest & E & G' & R & O).
  exists out, st', (read0 ++ read), rest. split; [exact E|]. split; [rewrite R0, R, app_assoc; reflexivity|]. split; [rewrite O, W0, transcode_app; reflexivity|].
  destruct G' as [(file & k & e & g' & K & _ & _ & _ & Cl & Rr) _ _ _]. unfold closed. rewrite K. destruct file; [contradiction|]. intros _.
  rewrite Rr. unfold pending. rewrite (Cl eq_refl). reflexivity.
Qed.
Lemma kept_back t g content n st acts : full t -> g <> 2 -> converting t g content n st -> always keeping acts st ->
  exists out st' read rest, run acts st = Ok (out, st') /\ skipn n content = read ++ rest /\ out ++ window st' = transcode t read /\
    (closed st' -> rest = []).
Proof.
  intros F Hg C A. apply (delivered t g content n st acts F Hg C). destruct (converting_good _ _ _ _ _ F Hg C) as (Fl & read0 & rest0 & R0 & G & W0).
  apply (keeping_careful t F acts st rest0 G); trivial. intros X. contradiction.
Qed.
Lemma single_bytes t g content n st acts : full t -> g <> 2 -> converting t g content n st ->
  (forall c, In c (skipn n content) -> length (written t c) = 1%nat) -> always inside acts st ->
  exists out st' read rest, run acts st = Ok (out, st') /\ skipn n content = read ++ rest /\ out ++ window st' = transcode t read /\
    (closed st' -> rest = []).
Proof.
  intros F Hg C H A. apply (delivered t g content n st acts F Hg C). destruct (converting_good _ _ _ _ _ F Hg C) as (Fl & read0 & rest0 & R0 & G & W0).
  apply (single_careful t F acts st rest0 G); trivial. intros c X. apply H. rewrite R0. apply in_or_app. auto.
Qed.
Lemma drained t g content n st m : full t -> g <> 2 -> converting t g content n st ->
  (forall c, In c (skipn n content) -> length (written t c) = 1%nat) -> (length content < m)%nat ->
  exists st', drain m st = Ok (transcode t (skipn n content), st').
Proof.
  intros F Hg C H L. destruct (converting_good _ _ _ _ _ F Hg C) as (Fl & read0 & rest0 & R0 & G & W0).
  destruct (drain_ok t F m st rest0 G Fl) as (st' & E).
  - intros c X. apply H. rewrite R0. apply in_or_app. auto.
  - pose proof (f_equal (@length _) R0) as X. rewrite skipn_length, app_length in X. lia.
  - exists st'. rewrite E, R0, W0, transcode_app. reflexivity.
Qed.
(** asking for more brings some, unless there is none *)
Lemma progress t g content n st acts out st' st2 b : full t -> g <> 2 -> converting t g content n st -> always careful acts st ->
  run acts st = Ok (out, st') -> window st' = [] -> ~ flagged st' -> prebuffer st' = Ok (st2, b) ->
  window st2 <> [] \/ out = transcode t (skipn n content).
Proof.
  intros F Hg C A Rn W0 Nf P. destruct (converting_good _ _ _ _ _ F Hg C) as (Fl & read0 & rest0 & R0 & G & Wi).
  destruct (careful_ok t F acts st rest0 G A) as (out' & st'' & read & rest & E & G' & R & O). rewrite Rn in E. injection E as <- <-.
  destruct (more_ok t st' rest F G' ltac:(intros X; contradiction)) as (st1 & b1 & read1 & rest1 & E1 & G1 & R1 & W1 & _ & M & _). rewrite P in E1. injection E1 as <- <-.
  rewrite W0 in W1, O. rewrite app_nil_r in O. destruct (M W0) as [N|N].
  - left. rewrite W1. cbn [app]. intros X. apply N. apply (transcode_none t); assumption.
  - subst rest1. rewrite app_nil_r in R1. subst read1. destruct rest as [|c rest].
    + right. rewrite O, R0, R, Wi, app_nil_r, transcode_app. reflexivity.
    + left. rewrite W1. cbn [app]. intros X. apply (transcode_none t) in X; [discriminate|exact F].
Qed.
