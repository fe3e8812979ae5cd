(** Parsing any file ends; the header and the start of the stream. *)
From Verif Require Import Prelude StrModel StrSpec StrProofs StreamModel StreamProofs AttrModel AttrProofs TreeModel
  ParseModel ParseProofs ParseProofs2 XmlSpec FsafeProofs FsafeProofs2.
Open Scope Z_scope.
Local Arguments Z.of_nat : simpl never.
Local Arguments Z.to_nat : simpl never.
Local Arguments Z.add : simpl never.
Local Arguments Z.sub : simpl never.
Local Arguments Z.eqb : simpl never.
Local Arguments Z.ltb : simpl never.
Local Arguments Z.leb : simpl never.

(** ** the declaration *)
Definition short (content : bytes) : Prop :=
  exists a q v q' b, content = a ++ s2b "standalone=" ++ [q] ++ v ++ [q'] ++ b /\ quote q /\ quote q' /\ (length v < 2)%nat.
Lemma short_suffix s content : suffix s content -> short s -> short content.
Proof. intros [x ->] (a & q & v & q' & b & -> & H). exists (x ++ a), q, v, q', b. rewrite <- !app_assoc. auto. Qed.

Lemma several_live : forall chunks st s m it last, Forall solid chunks -> live st s m -> 0 <= it -> last <= 0 ->
  exists st' v s' m', inspect_several st chunks it last = Ok (st', v) /\ live st' s' m' /\ (m' <= m)%nat /\ suffix s' s /\
    ((0 <? v) = true -> exists c, In c chunks /\ (s = c ++ s' \/ over st' s')).
Proof.
  induction chunks as [|c chunks IH]; intros st s m it last G L Hi Hl; cbn [inspect_several].
  - exists st, last, s, m. split; [reflexivity|]. split; [exact L|]. split; [lia|]. split; [apply suffix_refl|].
    intros H. apply Z.ltb_lt in H. lia.
  - destruct (inspect_live st s m c L (Forall_inv G)) as (st1 & v & s1 & m1 & E1 & L1 & Lm1 & S1 & Y & Nn). rewrite E1. cbn [bind].
    apply Forall_inv_tail in G. destruct (0 <? v) eqn:V.
    + apply Z.ltb_lt in V. replace (v =? -1) with false by (symmetry; apply Z.eqb_neq; lia). replace (v =? 0) with false by (symmetry; apply Z.eqb_neq; lia).
      exists st1, (it + 1), s1, m1. split; [reflexivity|]. split; [exact L1|]. split; [exact Lm1|]. split; [exact S1|]. intros _.
      exists c. split; [left; reflexivity|]. apply Y. reflexivity.
    + destruct (Nn eq_refl) as (Hv & -> & _). clear Y Nn.
      assert (Go : forall last', last' <= 0 -> exists st' v0 s' m', inspect_several st1 chunks (it + 1) last' = Ok (st', v0) /\ live st' s' m' /\ (m' <= m)%nat /\ suffix s' s /\
        ((0 <? v0) = true -> exists c0, In c0 (c :: chunks) /\ (s = c0 ++ s' \/ over st' s'))).
      { intros last' Hl'. destruct (IH st1 s m1 (it + 1) last' G L1 ltac:(lia) Hl') as (st' & v0 & s' & m' & H1 & H2 & H3 & H4 & H5).
        exists st', v0, s', m'. repeat split; auto; [lia|]. intros H. destruct (H5 H) as (c0 & I0 & H0). exists c0. split; [right; exact I0|exact H0]. }
      destruct Hv as [-> | ->].
      * change (0 =? -1) with false. change (0 =? 0) with true. cbv iota. apply Go. exact Hl.
      * change (-1 =? -1) with true. cbv iota. apply Go. lia.
Qed.

Lemma quote_stop c : stops quotes c -> exists q, c = [q] /\ quote q.
Proof.
  intros (y & it & H). unfold stop_at, quotes in H. cbn [existsb] in H.
  change (ws_chunk (s2b "'")) with false in H. change (ws_chunk ["034"%char]) with false in H. cbn [orb andb hit] in H.
  change (ws_chunk (s2b "'")) with false in H. change (ws_chunk ["034"%char]) with false in H. cbv iota in H.
  change (s2b "'") with ["'"%char] in H. destruct c as [|x c]; cbn [app length] in *.
  - destruct (after ["'"%char] y); [discriminate|]. destruct (after ["034"%char] y); discriminate.
  - cbn [after] in H. destruct (Ascii.eqb_spec "'" x) as [<- |E].
    + destruct c; [|discriminate]. eexists. split; [reflexivity|left; reflexivity].
    + destruct (Ascii.eqb_spec "034" x) as [<- |E']; [|discriminate].
      destruct c; [|discriminate]. eexists. split; [reflexivity|right; reflexivity].
Qed.

Lemma doctype_okay U st s m d : live st s m ->
  okay U (_ <- configure_encoding d ;;
  '(st, v) <- stream_inspect st (s2b "<!DOCTYPE") ;;
  if 0 <? v then
    '(st, _) <- get_until_ref st true [s2b ">"] ;;
    consume_comments st d
  else Ok (Some (st, d))) (fun x => exists s' m', live (fst x) s' m').
Proof.
  intros L. rewrite configure_ok. cbn [bind].
  destruct (inspect_live st s m (s2b "<!DOCTYPE") L ltac:(sld)) as (st1 & v & s1 & m1 & E1 & L1 & _). rewrite E1. cbn [bind].
  destruct (0 <? v); [|apply okay_some; exists s1, m1; exact L1].
  destruct (until_live true [s2b ">"] _ s1 m1 ltac:(gc) L1) as (st2 & o & E2 & s2 & m2 & L2 & _).
  unfold get_until_ref. rewrite E2. cbn [bind].
  apply (okay_imp U U _ _ _ (consume_okay U st2 s2 m2 d L2)); [auto|]. intros x (s' & m' & H & _). eauto.
Qed.

Lemma header_okay st s m d content : live st s m -> suffix s content ->
  stream_check st ["239"; "187"; "191"]%char = Ok false \/
   (stream_check st ["239"; "187"; "191"]%char = Ok true /\ exists s' m', live (stream_move st 3) s' m' /\ suffix s' content) ->
  okay (short content) (parse_xml_header st d) (fun x => exists s' m', live (fst x) s' m').
Proof.
  intros L0 S0 B. unfold parse_xml_header.
  assert (B' : exists (bom : bool) s m, stream_check st ["239"; "187"; "191"]%char = Ok bom /\ live (if bom then stream_move st 3 else st) s m /\ suffix s content).
  { destruct B as [B|(B & s' & m' & H1 & H2)]; rewrite B; [exists false, s, m; auto|exists true, s', m'; auto]. }
  clear B. destruct B' as (bom & s1 & m1 & B & L & S1). rewrite B. cbn [bind]. cbv zeta.
  set (st1 := if bom then stream_move st 3 else st) in *. clearbody st1. clear B L0 S0 st s m bom.
  destruct (inspect_live st1 s1 m1 (s2b "<?") L ltac:(sld)) as (st2 & v & s2 & m2 & E2 & L2 & _ & S2 & _). rewrite E2. cbn [bind].
  pose proof (suffix_trans _ _ _ S2 S1) as T2. clear S2 E2.
  apply (okay_bind _ _ _ (fun x : stream * pdoc => exists s' m', live (fst x) s' m')).
  2: { intros [st3 d3] (s3 & m3 & L3). apply (doctype_okay _ st3 s3 m3 d3 L3). }
  destruct (v =? 0); [apply okay_some; exists s2, m2; exact L2|].
  destruct (inspect_live st2 s2 m2 (s2b "xml") L2 ltac:(sld)) as (st3 & v3 & s3 & m3 & E3 & L3 & _ & S3 & _). rewrite E3. cbn [bind].
  destruct (negb _); [apply okay_none|]. pose proof (suffix_trans _ _ _ S3 T2) as T3.
  destruct (spaces_live _ _ _ L3) as (st4 & s4 & m4 & E4 & L4 & _ & S4 & _). rewrite E4. cbn [bind]. pose proof (suffix_trans _ _ _ S4 T3) as T4.
  destruct (inspect_live st4 s4 m4 (s2b "version=") L4 ltac:(sld)) as (st5 & v5 & s5 & m5 & E5 & L5 & _ & S5 & _). rewrite E5. cbn [bind].
  destruct (v5 =? 0); [apply okay_none|]. pose proof (suffix_trans _ _ _ S5 T4) as T5.
  destruct (spaces_live _ _ _ L5) as (st6 & s6 & m6 & E6 & L6 & _ & S6 & _). rewrite E6. cbn [bind]. pose proof (suffix_trans _ _ _ S6 T5) as T6.
  destruct (several_live [["034"; "1"; "."; "0"; "034"]%char; ["039"; "1"; "."; "0"; "039"]%char] st6 s6 m6 0 0) as (st7 & v7 & s7 & m7 & E7 & L7 & _ & S7 & _);
    [constructor; [sld|constructor; [sld|constructor]]|exact L6|lia|lia|].
  unfold stream_inspect_several at 1. rewrite E7. cbn [bind]. destruct (v7 =? 0); [apply okay_none|]. pose proof (suffix_trans _ _ _ S7 T6) as T7.
  destruct (spaces_live _ _ _ L7) as (st8 & s8 & m8 & E8 & L8 & _ & S8 & _). rewrite E8. cbn [bind]. pose proof (suffix_trans _ _ _ S8 T7) as T8.
  destruct (several_live (quoted (s2b "encoding=")) st8 s8 m8 0 0) as (st9 & v9 & s9 & m9 & E9 & L9 & _ & S9 & _);
    [constructor; [sld|constructor; [sld|constructor]]|exact L8|lia|lia|].
  unfold stream_inspect_several at 1. rewrite E9. cbn [bind]. pose proof (suffix_trans _ _ _ S9 T8) as T9.
  clear E3 E4 E5 E6 E7 E8 E9 S3 S4 S5 S6 S7 S8 S9.
  apply (okay_bind _ _ _ (fun x : stream * pdoc => exists s' m', live (fst x) s' m' /\ suffix s' content)).
  { destruct (0 <? v9); [|apply okay_some; exists s9, m9; auto].
    destruct (until_live false quotes _ s9 m9 ltac:(unfold quotes; gc) L9) as (stq & o & Eq & sq & mq & Lq & _ & Sq & _).
    unfold get_until. rewrite Eq. cbn [bind]. destruct o as [[e it]|]; [|apply okay_none].
    apply okay_some. exists sq, mq. split; [exact Lq|]. eapply suffix_trans; eassumption. }
  intros [st10 d10] (s10 & m10 & L10 & T10). cbn [fst] in *. clear L9 T9.
  destruct (spaces_live _ _ _ L10) as (st11 & s11 & m11 & E11 & L11 & _ & S11 & _). rewrite E11. cbn [bind]. pose proof (suffix_trans _ _ _ S11 T10) as T11.
  destruct (several_live (quoted (s2b "standalone=")) st11 s11 m11 0 0) as (st12 & v12 & s12 & m12 & E12 & L12 & _ & S12 & Y12);
    [constructor; [sld|constructor; [sld|constructor]]|exact L11|lia|lia|].
  unfold stream_inspect_several. rewrite E12. cbn [bind]. pose proof (suffix_trans _ _ _ S12 T11) as T12.
  apply (okay_bind _ _ _ (fun x : stream * pdoc => exists s' m', live (fst x) s' m')).
  { destruct (0 <? v12); [|apply okay_some; exists s12, m12; auto]. destruct (Y12 eq_refl) as (c & Ic & Hc).
    destruct (until_live false quotes _ s12 m12 ltac:(unfold quotes; gc) L12) as (stq & o & Eq & sq & mq & Lq & _ & Sq & Oq).
    unfold get_until. rewrite Eq. cbn [bind]. destruct o as [[e it]|]; [|apply okay_none].
    destruct (Oq _ _ eq_refl) as (_ & Hn & _ & c' & Es & Hst). apply quote_stop in Hst. destruct Hst as (q' & -> & Hq').
    destruct Hc as [Hc|Hc]; [|contradiction (over_nrm _ _ _ Hc Hn)].
    assert (Q : exists q, c = s2b "standalone=" ++ [q] /\ quote q).
    { destruct Ic as [<- |[<- |[]]]; eexists; (split; [reflexivity|]); [right|left]; reflexivity. }
    destruct Q as (q & -> & Hq). unfold is_yes.
    destruct (mem_sub (cs e) 0 3) as [y0| |] eqn:Em; cbn [bind].
    - apply okay_some. exists sq, mq. exact Lq.
    - left. split; [reflexivity|]. apply (short_suffix s11); [exact T11|]. exists [], q, e, q', sq. split; [|split; [exact Hq|split; [exact Hq'|]]].
      + rewrite Hc, Es, <- !app_assoc. reflexivity.
      + clear - Em. unfold mem_sub in Em. destruct (_ || _ || _) eqn:Eb in Em; [|discriminate].
        change (0 <? 0) with false in Eb. change (3 <? 0) with false in Eb. cbn [orb] in Eb. apply Z.ltb_lt in Eb. unfold cs in Eb. rewrite app_length in Eb.
        simpl length in Eb. lia.
    - exfalso. clear - Em. unfold mem_sub in Em. destruct (_ || _ || _) in Em; discriminate. }
  intros [st13 d13] (s13 & m13 & L13). cbn [fst] in *.
  destruct (spaces_live _ _ _ L13) as (st14 & s14 & m14 & E14 & L14 & _). rewrite E14. cbn [bind].
  destruct (inspect_live st14 s14 m14 (s2b "?>") L14 ltac:(sld)) as (st15 & v15 & s15 & m15 & E15 & L15 & _). rewrite E15. cbn [bind].
  destruct (negb _); [apply okay_none|].
  apply (okay_imp (short content) _ _ _ _ (consume_okay _ st15 s15 m15 d13 L15)); [auto|]. intros x (s' & m' & H & _). eauto.
Qed.

Lemma common_okay st s m content : live st s m -> suffix s content ->
  stream_check st ["239"; "187"; "191"]%char = Ok false \/
   (stream_check st ["239"; "187"; "191"]%char = Ok true /\ exists s' m', live (stream_move st 3) s' m' /\ suffix s' content) ->
  okay (short content) (parse_common st) (fun _ => True).
Proof.
  intros L Sf B. unfold parse_common. destruct (header_okay st s m pdoc_new content L Sf B) as [[E U]|(o & E & H)]; rewrite E; [left; auto|].
  destruct o as [[st1 d1]|]; [|apply okay_none]. destruct (H _ eq_refl) as (s1 & m1 & L1). cbn [fst] in *.
  eapply okay_bind; [apply (node_okay _ st1 s1 m1 (with_header d1) L1)|].
  intros [[st2 d2] e2] (s2 & m2 & L2 & _ & Hd2). cbn [fst snd] in *.
  apply (okay_bind _ _ _ (fun _ => True)).
  - destruct e2; [apply okay_some; exact I|]. apply (content_okay _ (turns st2) st2 s2 m2 d2 L2); [exact (live_turns _ _ _ L2)|exact Hd2].
  - intros [st3 d3] _. destruct (p_stack d3); [apply okay_some; exact I|apply okay_none].
Qed.

(** ** the file *)
Lemma after_padded : forall c w k r, nul_free c -> after c (w ++ repeat NUL k) = Some r -> (length c <= length w)%nat.
Proof.
  induction c as [|x c IH]; intros w k r Hc A; [cbn; lia|]. apply nul_free_cons in Hc. destruct Hc as [Hx Hc].
  destruct w as [|y w]; cbn [app] in A.
  - destruct k as [|k]; cbn [repeat after] in A; [discriminate|]. destruct (Ascii.eqb_spec x NUL); [subst x; discriminate|discriminate].
  - cbn [after] in A. destruct (Ascii.eqb x y); [|discriminate]. apply IH in A; [simpl; lia|exact Hc].
Qed.
Lemma start_any bs content : 64 <= bs -> exists st w f k,
  ('(st, _) <- prebuffer (Stream (FD (Some content)) (repeat NUL (Z.to_nat bs + 1)) bs 0 0 0) ;; Ok st) = Ok st /\ norm st w f /\ s_idx st = 0 /\ s_buf st = w ++ repeat NUL k /\
  content = w ++ txt f.
Proof.
  intros L64. set (n := (Z.to_nat bs + 1)%nat). set (x := firstn (Z.to_nat bs) content).
  assert (Ln : Z.of_nat n = bs + 1) by (unfold n; lia).
  assert (Lx : Z.of_nat (length x) <= bs) by (unfold x; rewrite firstn_length; lia).
  unfold prebuffer. cbn [s_kind s_idx s_size s_buf s_bufsize s_prev]. cbv zeta. change (0 <? 0) with false. cbn [andb].
  replace (0 =? bs) with false by (symmetry; apply Z.eqb_neq; lia). cbn [andb bind]. change (0 =? 0) with true. cbv iota.
  rewrite Z.sub_0_r. fold x.
  assert (Er : repeat NUL n = repeat NUL (length x) ++ repeat NUL (n - length x)) by (rewrite <- repeat_app; f_equal; lia).
  assert (M : memcpy_to (repeat NUL n) 0 x = Ok (x ++ repeat NUL (n - length x))).
  { rewrite Er. apply (memcpy_app [] (repeat NUL (length x)) (repeat NUL (n - length x)) x); [reflexivity|rewrite repeat_length; reflexivity]. }
  rewrite M. cbn [bind]. pose proof (firstn_skipn (length x) content) as FS.
  assert (Fx : firstn (length x) content = x).
  { unfold x at 2. rewrite <- (firstn_skipn (Z.to_nat bs) content) at 1. fold x. rewrite firstn_app, Nat.sub_diag, firstn_all. cbn [firstn]. apply app_nil_r. }
  rewrite Fx in FS.
  assert (LB : Z.of_nat (length (x ++ repeat NUL (n - length x))) = bs + 1) by (rewrite app_length, repeat_length; lia).
  assert (Ex : firstn (Z.to_nat bs) content = x) by reflexivity. clearbody n x. destruct x as [|c x].
  - eexists _, [], None, n. cbn [bind]. split; [reflexivity|]. cbn [length app txt] in *. rewrite Nat.sub_0_r in *.
    split; [|split; [reflexivity|split; [reflexivity|]]].
    + exists [], (repeat NUL n). cbn [s_kind s_buf s_size s_idx s_bufsize app length]. repeat split; auto; lia.
    + pose proof Ex as E0. destruct content as [|c0 r]; [reflexivity|].
      destruct (Z.to_nat bs) eqn:Eb in E0; [lia|discriminate].
  - eexists _, (c :: x), (Some (skipn (length (c :: x)) content)), _. split; [cbn [bind]; reflexivity|].
    split; [|split; [reflexivity|split; [reflexivity|symmetry; exact FS]]].
    exists [], (repeat NUL (n - length (c :: x))). cbn [s_kind s_buf s_size s_idx s_bufsize].
    repeat split; auto; lia.
Qed.

Lemma file_start content : exists st w f k, stream_file content = Ok st /\ norm st w f /\ s_idx st = 0 /\ s_buf st = w ++ repeat NUL k /\
  content = w ++ txt f.
Proof. apply start_any. unfold buffer_size. lia. Qed.

Theorem file_ends content : (exists r, doc_parse_file content = Ok r) \/ (doc_parse_file content = UB /\ short content).
Proof.
  unfold doc_parse_file. destruct (file_start content) as (st & w & f & k & E & N & I & B & Ec). rewrite E. cbn [bind].
  assert (L : live st content (length content + open f)) by (left; exists (open f); split; [exists w, f; auto|reflexivity]).
  pose proof N as (pre & post & K & B' & I' & Z & Lb & Ls & L64).
  destruct (common_okay st content _ content L (suffix_refl _)) as [[Eu U]|(o & Eo & _)]; [|auto|eauto].
  unfold stream_check, ptr_at. rewrite I. change (0 <? 0) with false. cbn [orb].
  destruct (Z.ltb_spec (Z.of_nat (length (s_buf st))) 0); [lia|]. cbn [bind skipn Z.to_nat]. unfold axl_memcmp, cs.
  change (Z.to_nat 0) with 0%nat. cbn [skipn].
  rewrite memcmp_any by (try discriminate; try nf; cbn; lia).
  destruct (after ["239"; "187"; "191"]%char (s_buf st)) as [r|] eqn:A; [|left; reflexivity]. right. split; [reflexivity|].
  rewrite B in A. assert (Lw : (length ["239"; "187"; "191"]%char <= length w)%nat) by (apply (after_padded _ w k r); [nf|exact A]).
  rewrite (after_app _ _ _ Lw) in A. destruct (after _ w) as [r'|] eqn:A'; [|discriminate]. apply after_Some in A'.
  exists (r' ++ txt f), (length (r' ++ txt f) + open f)%nat. split.
  - left. exists (open f). split; [|reflexivity]. exists r', f. split; [|auto]. unfold stream_move, stream_accept.
    subst w. pose proof (norm_advance st _ r' f 3 0 N) as H0. rewrite I in H0. specialize (H0 eq_refl).
    destruct H0 as (p1 & q1 & H0). exists p1, q1. exact H0.
  - rewrite Ec, A', <- app_assoc. apply suffix_app.
Qed.
