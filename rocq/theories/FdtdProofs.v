(** Loading a DTD from a file stays inside the buffer, whatever the file holds and whatever the
    stream is made to hold by parameter entities. *)
From Verif Require Import Prelude StrModel StrProofs StrProofs3 TreeModel StreamModel StreamProofs ParseModel ParseProofs DtdModel DtdDocModel LoadModel LoadProofs LoadProofs2 LoadProofs3 LoadProofs9.
Open Scope Z_scope.
Local Arguments Z.of_nat : simpl never.
Local Arguments Z.to_nat : simpl never.
Local Arguments Z.add : simpl never.
Local Arguments Z.sub : simpl never.
Local Arguments Z.eqb : simpl never.
Local Arguments Z.ltb : simpl never.
Local Arguments Z.leb : simpl never.

(** ** no undefined behaviour *)
Definition nub {A} (r : res A) (P : A -> Prop) : Prop := match r with UB => False | NoFuel => True | Ok x => P x end.
Definition nubo {A} (r : res (option A)) (P : A -> Prop) : Prop := nub r (fun o => forall x, o = Some x -> P x).
Lemma nub_bind {A B} (r : res A) (k : A -> res B) P Q : nub r P -> (forall x, P x -> nub (k x) Q) -> nub (bind r k) Q.
Proof. destruct r; cbn; auto. Qed.
Lemma nub_imp {A} (r : res A) (P Q : A -> Prop) : nub r P -> (forall x, P x -> Q x) -> nub r Q.
Proof. destruct r; cbn; auto. Qed.
Lemma nubo_bind {A B} (r : res (option A)) (k : A -> res (option B)) P Q : nubo r P -> (forall x, P x -> nubo (k x) Q) -> nubo (bindo r k) Q.
Proof. destruct r as [[x|]| |]; cbn; auto. discriminate. Qed.
Lemma nubo_none {A} (P : A -> Prop) : nubo (Ok None) P.
Proof. intros x E. discriminate. Qed.
Lemma nubo_some {A} (P : A -> Prop) x : P x -> nubo (Ok (Some x)) P.
Proof. intros H y E. injection E as <-. exact H. Qed.

(** ** the buffer *)
(** the buffer has its size, ends with a terminator, and the position is in it; it may be behind
    the end of what was read *)
Record safe (st : stream) : Prop := Safe {
  sf_kind : exists f, s_kind st = FD f;
  sf_len : Z.of_nat (length (s_buf st)) = s_bufsize st + 1;
  sf_nul : nth_error (s_buf st) (Z.to_nat (s_bufsize st)) = Some NUL;
  sf_size : 0 <= s_size st <= s_bufsize st;
  sf_idx : 0 <= s_idx st;
  sf_prev : 0 <= s_prev st;
  sf_pos : s_idx st + s_prev st <= s_bufsize st
}.
(** the buffer did not shrink *)
Definition keeps (st st' : stream) : Prop := safe st' /\ s_bufsize st <= s_bufsize st'.
Lemma keeps_refl st : safe st -> keeps st st.
Proof. split; [assumption|lia]. Qed.
Lemma keeps_trans a b c : keeps a b -> keeps b c -> keeps a c.
Proof. intros [_ H] [S' H']. split; [exact S'|lia]. Qed.

Lemma memcpy_safe b off src : 0 <= off -> off + Z.of_nat (length src) <= Z.of_nat (length b) ->
  exists b', memcpy_to b off src = Ok b' /\ length b' = length b /\ forall k, off + Z.of_nat (length src) <= k -> nth_error b' (Z.to_nat k) = nth_error b (Z.to_nat k).
Proof.
  intros H L. unfold memcpy_to. replace (off <? 0) with false by (symmetry; apply Z.ltb_ge; lia).
  replace (_ <? _) with false by (symmetry; apply Z.ltb_ge; lia). cbn [orb]. eexists. split; [reflexivity|]. split.
  - rewrite !app_length, firstn_length, skipn_length. lia.
  - intros k Hk. assert (L1 : length (firstn (Z.to_nat off) b) = Z.to_nat off) by (rewrite firstn_length; lia).
    rewrite nth_error_app2 by lia. rewrite nth_error_app2 by lia. rewrite L1.
    rewrite <- (firstn_skipn (Z.to_nat off + length src) b) at 2. rewrite nth_error_app2; rewrite firstn_length; [|lia]. f_equal. lia.
Qed.
Lemma sub_safe b off n : 0 <= off -> 0 <= n -> off + n <= Z.of_nat (length b) -> exists x, mem_sub b off n = Ok x /\ Z.of_nat (length x) = n.
Proof.
  intros H1 H2 H3. unfold mem_sub. replace (off <? 0) with false by (symmetry; apply Z.ltb_ge; lia). replace (n <? 0) with false by (symmetry; apply Z.ltb_ge; lia).
  replace (_ <? _) with false by (symmetry; apply Z.ltb_ge; lia). cbn [orb]. eexists. split; [reflexivity|]. rewrite firstn_length, skipn_length. lia.
Qed.
Lemma rd_safe b i : 0 <= i < Z.of_nat (length b) -> exists c, rd b i = Ok c.
Proof.
  intros H. unfold rd. replace (i <? 0) with false by (symmetry; apply Z.ltb_ge; lia).
  destruct (nth_error b (Z.to_nat i)) eqn:E; [eexists; reflexivity|]. apply nth_error_None in E. lia.
Qed.
Lemma ptr_safe b i : 0 <= i <= Z.of_nat (length b) -> ptr_at b i = Ok (skipn (Z.to_nat i) b).
Proof. intros H. unfold ptr_at. replace (i <? 0) with false by (symmetry; apply Z.ltb_ge; lia). replace (_ <? _) with false by (symmetry; apply Z.ltb_ge; lia). reflexivity. Qed.
(** a terminator stops the comparison *)
Lemma memcmp_stop : forall c t b i n k, nul_free c -> c <> [] -> n = i + Z.of_nat (length c) -> nth_error b k = Some NUL ->
  exists r : bool, memcmp_loop (c ++ NUL :: t) b i n = Ok r /\ (r = true -> (length c <= k)%nat).
Proof.
  induction c as [|x c IH]; intros t b i n k Hc Hne E Hk; [contradiction|]. apply nul_free_cons in Hc. destruct Hc as [Hx Hc].
  simpl length in E. rewrite Nat2Z.inj_succ in E. cbn [app memcmp_loop]. rewrite Hx.
  destruct b as [|y b]; [destruct k; discriminate|]. destruct (Ascii.eqb_spec y NUL) as [Ey|Ey]; [exists false; split; [reflexivity|discriminate]|].
  destruct (negb (Ascii.eqb x y)); [exists false; split; [reflexivity|discriminate]|].
  destruct k as [|k]; [cbn in Hk; congruence|]. cbn [nth_error] in Hk.
  destruct (Z.eqb_spec (i + 1) n) as [En|En].
  - exists true. split; [reflexivity|]. intros _. simpl. lia.
  - destruct c as [|x' c]; [simpl length in E; lia|]. destruct (IH t b (i + 1) n k Hc ltac:(discriminate) ltac:(lia) Hk) as (r & Er & Hr).
    exists r. split; [exact Er|]. intros H. specialize (Hr H). simpl in *. lia.
Qed.
Lemma nth_skipn {A} (b : list A) i k : (i <= k)%nat -> nth_error (skipn i b) (k - i) = nth_error b k.
Proof.
  revert b k. induction i as [|i IH]; intros b k H; [rewrite Nat.sub_0_r; reflexivity|]. destruct b as [|x b]; [destruct k; [lia|]; destruct (S k - S i)%nat; reflexivity|].
  destruct k as [|k]; [lia|]. cbn [skipn nth_error]. change (S k - S i)%nat with (k - i)%nat. apply IH. lia.
Qed.

(** what filling the buffer leaves *)
Lemma prebuffer_safe st : safe st -> 1 <= s_bufsize st ->
  nub (prebuffer st) (fun x => keeps st (fst x) /\ (snd x = true -> s_idx (fst x) = 0 /\ 1 <= s_size (fst x)) /\
    (s_idx st <= s_size st -> s_idx (fst x) <= s_size (fst x) /\ s_size st - s_idx st <= s_size (fst x) - s_idx (fst x) /\
       (snd x = true -> s_size st - s_idx st < s_size (fst x) - s_idx (fst x)))).
Proof.
  intros S H1. destruct S as [[f K] Ln Nu Sz Ix Pv Ps]. unfold prebuffer. rewrite K. destruct f as [file|].
  2:{ cbn. split; [split; [constructor; eauto|lia]|]. split; [discriminate|]. intros H. split; [exact H|]. split; [lia|discriminate]. }
  set (Q := fun y : bytes * Z * Z => Z.of_nat (length (fst (fst y))) = snd (fst y) + 1 /\ nth_error (fst (fst y)) (Z.to_nat (snd (fst y))) = Some NUL /\
    s_bufsize st <= snd (fst y) /\ 0 <= snd y <= snd (fst y) /\ (s_idx st <= s_size st -> snd y = s_size st - s_idx st)).
  apply (nub_bind _ _ Q).
  - destruct ((0 <? s_idx st) && (0 <? s_size st - s_idx st)) eqn:C.
    + apply andb_true_iff in C. destruct C as [C1 C2]. apply Z.ltb_lt in C1, C2.
      destruct (sub_safe (s_buf st) (s_idx st) (s_size st - s_idx st)) as (x & -> & Lx); try lia. cbn [bind].
      destruct (memcpy_safe (s_buf st) 0 x) as (b' & -> & Lb & Nb); try lia. cbn. unfold Q. cbn [fst snd].
      rewrite Lb. split; [exact Ln|]. split; [rewrite Nb by lia; exact Nu|]. split; [lia|]. split; lia.
    + destruct ((s_size st =? s_bufsize st) && (s_idx st =? 0)) eqn:D.
      * apply andb_true_iff in D. destruct D as [D1 D2]. apply Z.eqb_eq in D1, D2. cbn. unfold Q. cbn [fst snd]. rewrite app_length, repeat_length.
        split; [lia|]. split; [|split; [lia|split; lia]]. rewrite nth_error_app2 by lia. apply nth_error_repeat. lia.
      * cbn. unfold Q. cbn [fst snd]. split; [exact Ln|]. split; [exact Nu|]. split; [lia|].
        destruct (Z.eqb_spec (s_size st) (s_idx st)) as [E|E]; [split; lia|]. split; [lia|]. intros H. apply andb_false_iff in C.
        destruct C as [C|C]; apply Z.ltb_ge in C; lia.
  - intros [[b bs] sz] (Lb & Nb & Hbs & Hsz & Hd). cbn [fst snd] in *.
    set (data := firstn (Z.to_nat (bs - sz)) file). assert (Ld : Z.of_nat (length data) <= bs - sz) by (unfold data; rewrite firstn_length; lia).
    destruct (memcpy_safe b sz data) as (b' & -> & Lb' & Nb'); try lia. cbn [bind].
    assert (Nn : nth_error b' (Z.to_nat bs) = Some NUL) by (rewrite Nb' by lia; exact Nb).
    destruct data as [|c data].
    + cbn. split; [split; [constructor; cbn; eauto; lia|cbn; lia]|]. split; [discriminate|]. intros H. specialize (Hd H). split; [lia|]. split; [lia|discriminate].
    + simpl length in *. cbn. split; [split; [constructor; cbn; eauto; lia|cbn; lia]|]. split; [intros _; lia|]. intros Hh. specialize (Hd Hh). repeat split; lia.
Qed.
Lemma accept_safe st : safe st -> keeps st (stream_accept st).
Proof. intros [K Ln Nu Sz Ix Pv Ps]. split; [|cbn; lia]. constructor; cbn; auto; lia. Qed.
Definition wide (st : stream) : Prop := safe st /\ 1 <= s_bufsize st.
Lemma keeps_wide st st' : wide st -> keeps st st' -> wide st'.
Proof. intros [_ H] [S' L]. split; [exact S'|lia]. Qed.

Lemma common_safe acc st c : wide st -> good_chunk c -> nub (common_inspect acc st c) (fun x => keeps st (fst x)).
Proof.
  intros [Sf H1] [Nc Hne]. unfold common_inspect. apply (nub_bind _ _ (fun x => keeps st (fst x))).
  - destruct (_ <? _); [|cbn; apply keeps_refl, Sf]. eapply nub_bind; [apply prebuffer_safe; assumption|]. intros [st' more] (K & _). exact K.
  - intros [st' out] [S' L']. cbn [fst] in *. destruct out; [cbn; split; assumption|]. pose proof S' as [K' Ln Nu Sz Ix Pv Ps].
    rewrite ptr_safe by lia. cbn [bind]. unfold axl_memcmp, cs.
    destruct (memcmp_stop c [] (skipn (Z.to_nat (s_idx st')) (s_buf st')) 0 (Z.of_nat (length c)) (Z.to_nat (s_bufsize st') - Z.to_nat (s_idx st')) Nc Hne ltac:(lia)) as (r & -> & Hr).
    { rewrite nth_skipn by lia. exact Nu. }
    cbn [bind]. destruct r; [|cbn; split; assumption]. specialize (Hr eq_refl). destruct acc; cbn; (split; [|cbn; lia]); constructor; cbn; auto; lia.
Qed.
Lemma inspect_safe st c : wide st -> good_chunk c -> nub (stream_inspect st c) (fun x => keeps st (fst x)).
Proof. apply common_safe. Qed.
Lemma peek_safe st c : wide st -> good_chunk c -> nub (stream_peek st c) (fun x => keeps st (fst x)).
Proof. apply common_safe. Qed.
Lemma remains_safe st : wide st -> nub (stream_remains st) (fun x => keeps st (fst x)).
Proof.
  intros [S1 H1]. unfold stream_remains. destruct (_ <=? _); [|cbn; apply keeps_refl, S1].
  eapply nub_imp; [apply prebuffer_safe; assumption|]. intros x (K & _). exact K.
Qed.
Lemma advance_safe st : safe st -> s_idx st < s_size st -> keeps st (set_pos st (s_idx st + 1) 0).
Proof. intros [K Ln Nu Sz Ix Pv Ps] H. split; [|cbn; lia]. constructor; cbn; auto; lia. Qed.
Lemma spaces_safe : forall n st r, wide st -> r <= s_size st - s_idx st -> nub (spaces_loop n st r) (fun st' => keeps st st').
Proof.
  induction n as [|n IH]; intros st r [Sf H1] Hr; [exact I|]. cbn [spaces_loop].
  apply (nub_bind _ _ (fun x => keeps st (fst (fst x)) /\ (snd (fst x) = true -> s_idx (fst (fst x)) < s_size (fst (fst x)) /\ snd x + 1 <= s_size (fst (fst x)) - s_idx (fst (fst x))))).
  - destruct (Z.ltb_spec (r - 1) 0) as [Hl|Hl].
    + eapply nub_bind; [apply prebuffer_safe; assumption|]. intros [st' more] (K & M & _). cbn. split; [exact K|]. intros ->. destruct (M eq_refl). cbn [fst] in *. lia.
    + cbn. split; [apply keeps_refl, Sf|]. intros _. lia.
  - intros [[st' go] r'] [K G]. cbn [fst snd] in *. destruct go; [|exact K]. destruct (G eq_refl) as [G1 G2]. pose proof K as [S' L']. pose proof S' as [K' Ln Nu Sz Ix Pv Ps].
    destruct (rd_safe (s_buf st') (s_idx st')) as (c & ->); [lia|]. cbn [bind]. destruct (is_ws c); [|exact K].
    pose proof (advance_safe st' S' G1) as K2. eapply nub_imp; [apply IH|].
    + eapply keeps_wide; [|exact K2]. split; [exact S'|lia].
    + cbn. lia.
    + intros st2 K3. eapply keeps_trans; [exact K|]. exact (keeps_trans _ _ _ K2 K3).
Qed.
Lemma consume_safe st : wide st -> nub (consume_spaces st) (fun st' => keeps st st').
Proof. intros W. apply spaces_safe; [exact W|lia]. Qed.

(** ** reading up to a terminator *)
Lemma chunks_safe chunks b size pos : Forall good_chunk chunks -> 0 <= pos < size -> size <= Z.of_nat (length b) ->
  forall it, nub (match_chunks chunks b size pos it) (fun o => forall i n, o = Some (i, n) -> 1 <= n /\ pos + n <= size).
Proof.
  intros G P L. induction G as [|c r [Nc Hne] G IH]; intros it; [cbn; discriminate|]. cbn [match_chunks].
  set (n := chunk_len c). apply (nub_bind _ _ (fun m : bool => m = true -> 1 <= n /\ pos + n <= size)).
  - destruct ((0 <? n) && (pos + n <=? size)) eqn:C; [|cbn; discriminate]. apply andb_true_iff in C. destruct C as [C1 C2]. apply Z.ltb_lt in C1. apply Z.leb_le in C2.
    destruct (rd_safe b pos) as (d & ->); [lia|]. cbn [bind]. destruct (rd_safe (cs c) 0) as (f & ->); [unfold cs; rewrite app_length; simpl length; lia|]. cbn [bind].
    destruct (Ascii.eqb f d); [|cbn; discriminate]. destruct (Z.eqb_spec n 1) as [E1|E1]; [cbn; lia|]. rewrite ptr_safe by lia. cbn [bind].
    unfold axl_memcmp, cs. assert (Hn : n = Z.of_nat (length c)).
    { subst n. unfold chunk_len in *. destruct (ws_chunk c); [lia|reflexivity]. }
    destruct c as [|x c]; [contradiction|]. simpl length in Hn. cbn [tl]. apply nul_free_cons in Nc. destruct Nc as [_ Nc].
    assert (Lc : (length c <= length (skipn (Z.to_nat (pos + 1)) b))%nat) by (rewrite skipn_length; lia).
    rewrite <- (app_nil_r (skipn _ b)). rewrite memcmp_within; try assumption; [cbn; lia|intros ->; simpl in Hn; lia|lia].
  - intros [|] Hm; [cbn; intros i k E; injection E as <- <-; apply Hm; reflexivity|apply IH].
Qed.
Lemma at_safe chunks b size pos : Forall good_chunk chunks -> 0 <= pos < size -> size <= Z.of_nat (length b) ->
  nub (match_at chunks b size pos) (fun o => forall i n, o = Some (i, n) -> 1 <= n /\ pos + n <= size).
Proof.
  intros G P L. unfold match_at. apply (nub_bind _ _ (fun _ => True)).
  - destruct (existsb ws_chunk chunks); [|exact I]. destruct (rd_safe b pos) as (d & ->); [lia|]. exact I.
  - intros [|] _; [cbn; intros i n E; injection E as <- <-; lia|apply chunks_safe; assumption].
Qed.
Lemma nth_split_at {A} (b : list A) n : (n < length b)%nat -> exists l c r, b = l ++ c :: r /\ length l = n.
Proof.
  intros H. destruct (nth_error b n) as [c|] eqn:E; [|apply nth_error_None in E; lia].
  destruct (nth_error_split _ _ E) as (l & r & E1 & E2). eauto.
Qed.
Lemma result_safe st acc ref i n it : safe st -> 0 <= i -> 1 <= n -> s_idx st + i + n <= s_size st ->
  nub (until_result st acc ref i n it) (fun x => keeps st (fst x) /\ (snd x <> None -> s_idx (fst x) <= s_size (fst x) /\ s_prev (fst x) = 0)).
Proof.
  intros [K Ln Nu Sz Ix Pv Ps] Hi Hn H. unfold until_result. destruct (sub_safe (s_buf st) (s_idx st) i) as (x & -> & Lx); try lia. cbn [bind].
  apply (nub_bind _ _ (fun b => length b = length (s_buf st) /\ nth_error b (Z.to_nat (s_bufsize st)) = Some NUL)).
  - destruct ref; [|cbn; auto]. destruct (nth_split_at (s_buf st) (Z.to_nat (s_idx st + i)) ltac:(lia)) as (l & c & r & E & El).
    rewrite E, wr_app by lia. cbn. rewrite E in Nu. rewrite !app_length. split; [reflexivity|].
    rewrite nth_error_app2 in Nu |- * by lia. destruct (Z.to_nat (s_bufsize st) - length l)%nat eqn:D; [lia|exact Nu].
  - intros b [Lb Nb]. cbn. split; [split; [constructor; cbn; auto; try lia; destruct acc; lia|cbn; lia]|]. intros _. destruct acc; lia.
Qed.

Lemma until_safe chunks acc ref : Forall good_chunk chunks -> forall n st i r (ag : bool), wide st -> 0 <= i ->
  (if ag then s_idx st + i < s_size st /\ s_idx st + i + 1 + r <= s_size st else (i = 0 \/ 0 <= r) /\ s_idx st + i + r <= s_size st) -> 
  (ag = true -> 0 <= r) ->
  nub (until_loop n st chunks acc ref i r ag) (fun x => keeps st (fst x) /\ (snd x <> None -> s_idx (fst x) <= s_size (fst x) /\ s_prev (fst x) = 0)).
Proof.
  intros G. induction n as [|n IH]; intros st i r ag [Sf H1] Hi Hag Hr; [exact I|]. cbn [until_loop].
  apply (nub_bind _ _ (fun x => let '(st', go, i', r') := x in keeps st st' /\ (go = true -> 0 <= i' /\ 0 <= r' /\ s_idx st' + i' < s_size st' /\ s_idx st' + i' + 1 + r' <= s_size st'))).
  - destruct ag.
    + cbn. split; [apply keeps_refl, Sf|]. intros _. specialize (Hr eq_refl). lia.
    + destruct (Z.ltb_spec (r - 1) 0) as [Hl|Hl].
      * pose proof (sf_kind _ Sf) as [f ->]. eapply nub_bind; [apply prebuffer_safe; assumption|]. intros [st' more] (K & M & D). cbn [fst snd] in *. cbn.
        split; [exact K|]. intros ->. destruct (M eq_refl) as [M1 M2]. rewrite M1 in *. pose proof (sf_idx _ Sf).
        destruct (Z.ltb_spec 0 i) as [H0|H0]; [|split; lia]. assert (s_idx st <= s_size st) as Hle by lia. destruct (D Hle) as (_ & _ & D3). specialize (D3 eq_refl). lia.
      * cbn. split; [apply keeps_refl, Sf|]. intros _. lia.
  - intros [[[st' go] i'] r'] [K Hgo]. destruct go; [|cbn; split; [exact K|congruence]]. destruct (Hgo eq_refl) as (G1 & G2 & G3 & G4). clear Hgo.
    pose proof K as [S' L']. pose proof S' as [K' Ln Nu Sz Ix Pv Ps]. assert (W' : wide st') by (split; [exact S'|lia]).
    eapply nub_bind; [apply at_safe; [exact G|lia|lia]|]. intros [[it len]|] Hm.
    + destruct (Hm _ _ eq_refl) as [Hm1 Hm2].
      assert (Res : forall st2, keeps st' st2 -> s_idx st2 + i' + len <= s_size st2 ->
        nub (until_result st2 acc ref i' len it) (fun x => keeps st (fst x) /\ (snd x <> None -> s_idx (fst x) <= s_size (fst x) /\ s_prev (fst x) = 0))).
      { intros st2 K2 H2. eapply nub_imp; [apply result_safe; [apply K2|lia|lia|lia]|]. intros x [K3 H3]. split; [|exact H3].
        exact (keeps_trans _ _ _ K (keeps_trans _ _ _ K2 K3)). }
      destruct ((len <? max_length chunks) && (s_idx st' + i' + len =? s_size st')); [|apply Res; [apply keeps_refl, S'|lia]].
      eapply nub_bind; [apply prebuffer_safe; [exact S'|lia]|]. intros [st2 more] (K2 & M & D). cbn [fst snd] in *.
      assert (s_idx st' <= s_size st') as Hle by lia. destruct (D Hle) as (D1 & D2 & D3). destruct more; [|apply Res; [exact K2|lia]].
      specialize (D3 eq_refl). eapply nub_imp; [apply (IH st2 i' r' true)|]; [eapply keeps_wide; eassumption|lia|split; lia|lia|].
      intros x [K3 H3]. split; [|exact H3]. exact (keeps_trans _ _ _ K (keeps_trans _ _ _ K2 K3)).
    + eapply nub_imp; [apply (IH st' (i' + 1) r' false W')|]; [lia|split; lia|discriminate|].
      intros x [K3 H3]. split; [|exact H3]. exact (keeps_trans _ _ _ K K3).
Qed.
Lemma get_safe st acc chunks : wide st -> Forall good_chunk chunks ->
  nub (get_until st acc chunks) (fun x => keeps st (fst x) /\ (snd x <> None -> s_idx (fst x) <= s_size (fst x) /\ s_prev (fst x) = 0)).
Proof. intros W G. apply until_safe; auto; lia. Qed.
Lemma get_ref_safe st acc chunks : wide st -> Forall good_chunk chunks ->
  nub (get_until_ref st acc chunks) (fun x => keeps st (fst x)).
Proof. intros W G. eapply nub_imp; [apply until_safe; auto; lia|]. intros x [H _]. exact H. Qed.

(** ** the loader *)
Lemma inspect_w st c : wide st -> good_chunk c -> nub (stream_inspect st c) (fun x => wide (fst x)).
Proof. intros W G. eapply nub_imp; [apply inspect_safe; assumption|]. intros x K. eapply keeps_wide; eassumption. Qed.
Lemma peek_w st c : wide st -> good_chunk c -> nub (stream_peek st c) (fun x => wide (fst x)).
Proof. intros W G. eapply nub_imp; [apply peek_safe; assumption|]. intros x K. eapply keeps_wide; eassumption. Qed.
Lemma spaces_w st : wide st -> nub (consume_spaces st) wide.
Proof. intros W. eapply nub_imp; [apply consume_safe; assumption|]. intros x K. eapply keeps_wide; eassumption. Qed.
Lemma get_w st acc chunks : wide st -> Forall good_chunk chunks -> nub (get_until st acc chunks) (fun x => wide (fst x)).
Proof. intros W G. eapply nub_imp; [apply get_safe; assumption|]. intros x [K _]. eapply keeps_wide; eassumption. Qed.
Lemma get_ref_w st acc chunks : wide st -> Forall good_chunk chunks -> nub (get_until_ref st acc chunks) (fun x => wide (fst x)).
Proof. intros W G. eapply nub_imp; [apply get_ref_safe; assumption|]. intros x K. eapply keeps_wide; eassumption. Qed.
Lemma remains_w st : wide st -> nub (stream_remains st) (fun x => wide (fst x)).
Proof. intros W. eapply nub_imp; [apply remains_safe; assumption|]. intros x K. eapply keeps_wide; eassumption. Qed.
Lemma accept_w st : wide st -> wide (stream_accept st).
Proof. intros W. eapply keeps_wide; [exact W|apply accept_safe, W]. Qed.
Ltac goodc := split; [nf|discriminate].
Ltac bnd := first [eapply nub_bind | eapply nubo_bind].
Ltac stp :=
  match goal with
  | |- _ (bind (consume_spaces ?s) _) _ => eapply nub_bind; [apply spaces_w; assumption|]; let W := fresh "W" in clear dependent s; intros s W; cbv beta in W
  | |- _ (bind (stream_inspect ?s ?c) _) _ => eapply nub_bind; [apply inspect_w; [assumption|goodc]|]; clear dependent s; let W := fresh "W" in let v := fresh "v" in intros [s v] W; cbv beta in W; cbn [fst] in W
  | |- _ (bind (stream_peek ?s ?c) _) _ => eapply nub_bind; [apply peek_w; [assumption|goodc]|]; clear dependent s; let W := fresh "W" in let v := fresh "v" in intros [s v] W; cbv beta in W; cbn [fst] in W
  | |- _ (bind (get_until ?s _ _) _) _ => eapply nub_bind; [apply get_w; [assumption|gc]|]; clear dependent s; let W := fresh "W" in let o := fresh "o" in intros [s o] W; cbv beta in W; cbn [fst] in W
  end.
Definition out {A} (x : stream * A) : Prop := wide (fst x).

Lemma which_w {A} : forall (l : list (bytes * A)) st d, wide st -> Forall good_chunk (map fst l) -> nub (which st l d) out.
Proof.
  induction l as [|[c v] l IH]; intros st d W G; [exact W|]. cbn [which]. cbn [map fst] in G. pose proof (Forall_inv G) as Gc. apply Forall_inv_tail in G.
  eapply nub_bind; [apply inspect_w; [exact W|exact Gc]|]. intros [st' r] W'. cbn [fst] in W'. destruct (0 <? r); [exact W'|apply IH; assumption].
Qed.
Ltac whi := match goal with |- _ (bind (which ?s _ _) _) _ => eapply nub_bind; [apply which_w; [assumption|gc]|]; clear dependent s; let W := fresh "W" in let o := fresh "o" in intros [s o] W; unfold out in W; cbn [fst] in W end.
Lemma close_w : forall stack st chunk cur, wide st -> nub (close_loop st chunk cur stack) (fun x => wide (fst (fst (fst x)))).
Proof.
  induction stack as [|up stack IH]; intros st chunk cur W; cbn [close_loop]; unfold repetition; stp; whi; stp; whi; stp; stp.
  - exact W.
  - destruct (0 <? v); [apply IH; assumption|exact W].
Qed.
Lemma separator_w st : wide st -> nubo (update_separator st) out.
Proof. intros W. unfold update_separator. stp. whi. destruct o; [apply nubo_some; exact W|apply nubo_none]. Qed.
Lemma name_w st ty cur stack x chunk : wide st -> nubo (name_step st ty cur stack x chunk) (fun y => wide (fst (fst (fst (fst y))))).
Proof.
  intros W. unfold name_step. apply (nub_bind _ _ out).
  - destruct (chunk =? 0); [|exact W]. stp. unfold update_chunk. apply which_w; [assumption|gc].
  - clear st W. intros [st c] W. unfold out in W. cbn [fst] in W. apply (nubo_bind _ _ out).
    + destruct (_ || _ || _); [apply separator_w; assumption|apply nubo_some; exact W].
    + clear st W. intros [st c2] W. unfold out in W. cbn [fst] in W. destruct (retype _ c2); [|apply nubo_none].
      apply (nub_bind _ _ (fun x => wide (fst (fst (fst x))))).
      * destruct (c2 =? 3); [apply close_w; assumption|exact W].
      * clear st W. intros [[[st c3] o] k] W. cbn [fst] in W. apply nubo_some. exact W.
Qed.
Lemma spec_w : forall n st ty cur stack, wide st -> nubo (spec_loop n st ty cur stack) out.
Proof.
  induction n as [|n IH]; intros st ty cur stack W; [exact I|]. rewrite spec_loop_S. stp. stp. destruct (0 <? v); [apply IH; assumption|].
  eapply nub_bind; [apply get_w; [assumption|apply stops_good]|]. clear dependent st. intros [st [[x c]|]] W; [|apply nubo_none]. cbn [fst] in W.
  destruct (c =? 8); [apply nubo_none|]. eapply nubo_bind; [apply name_w; assumption|]. intros [[[[st' c'] ty'] o'] k'] W1. cbn [fst] in W1.
  destruct (_ || _); [apply IH; assumption|apply nubo_some; exact W1].
Qed.
Lemma read_w st : wide st -> nubo (read_spec st) out.
Proof. intros W. unfold read_spec. stp. stp. destruct (v =? 0); [apply nubo_none|apply spec_w; assumption]. Qed.
Lemma element_w st l : wide st -> nubo (parse_element st l) out.
Proof.
  intros W. unfold parse_element. stp. stp. destruct (negb _); [apply nubo_none|]. stp. stp. destruct o as [[name m]|]; [|apply nubo_none].
  destruct (_ || _); [apply nubo_none|]. stp. stp. apply (nubo_bind _ _ out).
  - destruct (0 <? v0); [apply nubo_some, accept_w, W|]. stp. destruct (0 <? v1); [apply nubo_some, accept_w, W|].
    eapply nubo_bind; [apply read_w; assumption|]. intros [st' [ty p]] W2. apply nubo_some. exact W2.
  - clear dependent st. intros [st [ty p]] W. unfold out in W. cbn [fst] in W. destruct (existsb _ _); [apply nubo_none|]. stp. stp.
    destruct (_ =? 0); [apply nubo_none|apply nubo_some; assumption].
Qed.
Lemma push_w st v : wide st -> s_prev st = 0 -> s_idx st <= s_size st -> v <> [] -> nub (stream_push st v) wide.
Proof.
  intros [Sf H1] Hp Hi Hv. pose proof Sf as [K Ln Nu Sz Ix Pv Ps]. unfold stream_push.
  assert (1 <= Z.of_nat (length v)) by (destruct v; [contradiction|simpl length; lia]).
  destruct (sub_safe (s_buf st) (s_idx st) (s_size st - s_idx st)) as (r & -> & Lr); try lia. cbn [bind].
  destruct (Z.ltb_spec (s_size st) (s_size st - s_idx st + Z.of_nat (length v))) as [H2|H2].
  - cbn [bind]. assert (Le : Z.of_nat (length (v ++ r)) = s_size st - s_idx st + Z.of_nat (length v)) by (rewrite app_length; lia).
    split; [|cbn; lia]. constructor; cbn; rewrite ?Hp; auto; try lia.
    + rewrite app_assoc, app_length. simpl length. lia.
    + rewrite app_assoc, nth_error_app2 by lia. replace (_ - _)%nat with 0%nat by lia. reflexivity.
  - destruct (memcpy_safe (s_buf st) 0 (v ++ r)) as (b & -> & Lb & Nb); [lia|rewrite app_length; lia|]. cbn [bind].
    split; [|cbn; lia]. constructor; cbn; rewrite ?Hp; auto; try lia. rewrite Nb; [exact Nu|rewrite app_length; lia].
Qed.
Lemma expand_w st ents : wide st -> nubo (expand st ents) wide.
Proof.
  intros W. unfold expand. eapply nub_bind; [apply inspect_safe; [exact W|goodc]|]. intros [st1 v] K1. cbn [fst] in K1.
  pose proof (keeps_wide _ _ W K1) as W1. destruct (negb _); [apply nubo_some; exact W1|].
  eapply nub_bind; [apply get_safe; [exact W1|gc]|]. intros [st2 [[name i]|]] [K2 P2]; [|apply nubo_none]. cbn [fst snd] in *.
  destruct (P2 ltac:(discriminate)) as [Hi Hp]. pose proof (keeps_wide _ _ W1 K2) as W2. destruct (entity_value _ _ _) as [value|].
  - eapply nub_bind; [apply push_w; [apply accept_w, W2|reflexivity|cbn; lia|destruct value; discriminate]|]. intros st3 W3. apply nubo_some, W3.
  - apply nubo_some. destruct W as [[K Ln Nu Sz Ix Pv Ps] H1]. destruct K1 as [_ L1]. destruct K2 as [S2 L2]. destruct S2 as [K' Ln' Nu' Sz' Ix' Pv' Ps'].
    split; [constructor; cbn; auto; lia|cbn; lia].
Qed.
Lemma type_w st : wide st -> nubo (att_type st) out.
Proof.
  intros W. unfold att_type. whi. destruct o as [ty|]; [|apply nubo_none].
  assert (G : forall t, nubo (Ok (Some (st, t : at_type))) out) by (intros; apply nubo_some; exact W). destruct ty; try apply G.
  clear G. stp. destruct o as [[x i]|]; [|apply nubo_none]. destruct (enum_total (cstr x) (cstr_nul_free x)) as (l' & ->). cbn [bind]. apply nubo_some. exact W.
Qed.
Lemma default_w st : wide st -> nubo (att_default st) out.
Proof.
  intros W. unfold att_default. whi. destruct o as [d|]; [apply nubo_some; assumption|]. stp.
  assert (Q : nub (if 0 <? v then consume_spaces st else Ok st) wide) by (destruct (0 <? v); [apply spaces_w; assumption|exact W]).
  eapply nub_bind; [exact Q|]. clear Q. clear dependent st. intros st W. stp. apply (nub_bind _ _ out).
  - destruct (0 <? v0); [exact W|]. apply peek_w; [assumption|goodc].
  - intros [st' v2] W2. destruct (0 <? v2); [apply nubo_some; exact W2|apply nubo_none].
Qed.
Lemma quoted_w st q : wide st -> q = dquote \/ q = s2b "'" ->
  nub ('(st, o) <- get_until st true [q] ;; Ok (st, match o with Some (x, _) => Some (cstr x) | None => None end)) out.
Proof. intros W [-> | ->]; stp; exact W. Qed.
Lemma which_in {A} (l : list (bytes * option A)) : forall st st' x, which st l None = Ok (st', Some x) -> exists c, In (c, Some x) l.
Proof.
  induction l as [|[c v] l IH]; intros st st' x E; [discriminate|]. cbn [which] in E. destruct (stream_inspect st c) as [[st1 r]| |]; try discriminate. cbn [bind] in E.
  destruct (0 <? r); [injection E as _ ->; exists c; left; reflexivity|]. destruct (IH _ _ _ E) as (c' & H). exists c'. right. exact H.
Qed.
Lemma value_w st : wide st -> nub (att_value st) out.
Proof.
  intros W. unfold att_value. set (l := [(dquote, Some dquote); (s2b "'", Some (s2b "'"))]). pose proof (which_w l st None W ltac:(gc)) as H.
  destruct (which st l None) as [[st' [q|]]| |] eqn:E; cbn in H |- *; [|exact H|exact H|exact I].
  apply quoted_w; [exact H|]. destruct (which_in l _ _ _ E) as (c & [X|[X|[]]]); injection X as _ <-; auto.
Qed.
Lemma atts_w ents : forall n st decls id idref, wide st -> nubo (att_loop n ents st decls id idref) out.
Proof.
  induction n as [|n IH]; intros st decls id idref W; [exact I|]. rewrite att_loop_S. stp. stp. destruct (0 <? v); [apply nubo_some; assumption|].
  stp. destruct o as [[name i]|]; [|apply nubo_none]. stp. eapply nubo_bind; [apply expand_w; assumption|]. clear dependent st. intros st W.
  eapply nubo_bind; [apply type_w; assumption|]. clear dependent st. intros [st ty] W. unfold out in W. cbn [fst] in W. stp.
  eapply nubo_bind; [apply default_w; assumption|]. clear dependent st. intros [st df] W. unfold out in W. cbn [fst] in W.
  destruct (bad_id _ _ _ _); [apply nubo_none|]. stp. eapply nub_bind; [apply value_w; assumption|]. clear dependent st. intros [st value] W. unfold out in W. cbn [fst] in W.
  destruct (bad_enum _ _); [apply nubo_none|]. apply IH, W.
Qed.
Lemma attlist_w n st l : wide st -> nubo (parse_attlist n st l) out.
Proof.
  intros W. unfold parse_attlist. stp. stp. destruct o as [[name i]|]; [|apply nubo_none]. cbv zeta.
  eapply nubo_bind; [apply atts_w; assumption|]. intros [st' [[ds id] idref]] W'. apply nubo_some. exact W'.
Qed.
Lemma entity_w st l : wide st -> nubo (parse_entity st l) out.
Proof.
  intros W. unfold parse_entity. stp. stp. destruct (negb _); [apply nubo_none|]. stp. stp. cbv zeta.
  assert (Q : nub (if 0 <? v0 then consume_spaces st else Ok st) wide) by (destruct (0 <? v0); [apply spaces_w; assumption|exact W]).
  eapply nub_bind; [exact Q|]. clear Q. clear dependent st. intros st W. stp. destruct o as [[name i]|]; [|apply nubo_none]. stp.
  match goal with |- context [which st ?x None] => set (ls := x) end. assert (H : nub (which st ls None) out) by (apply which_w; [assumption|gc]).
  destruct (which st ls None) as [[st' [q|]]| |] eqn:E; [|cbn; intros; discriminate|exact H|exact I]. cbn [bind]. unfold nub, out in H. cbn [fst] in H.
  apply (nub_bind _ _ out).
  - destruct q as [q|]; [|exact H]. apply quoted_w; [exact H|]. destruct (which_in ls _ _ _ E) as (c & [X|[X|[X|[X|[]]]]]); try discriminate X; injection X as _ <-; auto.
  - clear dependent st. clear dependent st'. intros [st content] W. unfold out in W. cbn [fst] in W. stp. stp. match goal with |- context [if ?b then _ else _] => destruct b end; [apply nubo_some; assumption|apply nubo_none].
Qed.
Lemma comments_w : forall n st d, wide st -> p_header d = false -> nubo (comments_loop n st d) (fun x => wide (fst x) /\ p_header (snd x) = false).
Proof.
  induction n as [|n IH]; intros st d W Hd; [exact I|]. cbn [comments_loop]. stp. stp.
  apply (nubo_bind _ _ (fun x => wide (fst (fst x)) /\ p_header (snd (fst x)) = false)).
  - destruct (0 <? v); [|apply nubo_some; auto]. eapply nub_bind; [apply get_ref_w; [assumption|gc]|]. clear dependent st. intros [st [[x i]|]] W; [|apply nubo_none].
    apply nubo_some. split; [exact W|]. cbn [fst snd]. unfold add_item. destruct (p_stack d); exact Hd.
  - clear dependent st. clear d Hd. intros [[st d] found] [W Hd]. cbn [fst snd] in *. stp. rewrite Hd. cbn [bind]. change (0 <? 0) with false. cbn [bindo bind].
    destruct found; [apply IH; assumption|]. stp. apply nubo_some. auto.
Qed.
Lemma dtd_w : forall n st l it, wide st -> nubo (dtd_loop n st l it) out.
Proof.
  induction n as [|n IH]; intros st l it W; [exact I|]. cbn [dtd_loop]. eapply nub_bind; [apply remains_w; assumption|]. clear dependent st. intros [st more] W. cbn [fst] in W.
  destruct (negb more); [apply nubo_some; exact W|]. eapply nubo_bind; [apply comments_w; [assumption|reflexivity]|]. clear dependent st. intros [st d] [W _]. cbn [fst] in W.
  stp. destruct (0 <? v).
  { eapply nubo_bind; [apply element_w; assumption|]. intros [st' l'] W'. apply IH, W'. }
  stp. destruct (0 <? v0).
  { eapply nubo_bind; [apply attlist_w; assumption|]. intros [st' l'] W'. apply IH, W'. }
  stp. destruct (0 <? v1).
  { eapply nubo_bind; [apply entity_w; assumption|]. intros [st' l'] W'. apply IH, W'. }
  destruct (it =? 3); [apply nubo_none|apply IH; assumption].
Qed.
Lemma finish_no_ub fuel l : finish fuel l <> UB.
Proof.
  unfold finish. destruct (l_elements l) as [|e es] eqn:E; cbn [bind]; [destruct (_ && _); discriminate|].
  pose proof (loop_no_ub fuel (e :: es) fuel e) as N2. unfold new_root. destruct (root_loop fuel fuel (e :: es) e) as [r| |]; cbn [bind]; try congruence; try discriminate.
  destruct (_ && _); discriminate.
Qed.

Lemma file_safe content : exists st, stream_file content = Ok st /\ wide st.
Proof.
  unfold stream_file. assert (G : forall bs, 64 <= bs -> exists st, ('(st, _) <- prebuffer (Stream (FD (Some content)) (repeat NUL (Z.to_nat bs + 1)) bs 0 0 0) ;; Ok st) = Ok st /\ wide st).
  { intros bs H. set (s0 := Stream _ _ _ _ _ _). assert (Sf : safe s0).
    { constructor; cbn; eauto; try lia; [rewrite repeat_length; lia|apply nth_error_repeat; lia]. }
    pose proof (prebuffer_safe s0 Sf ltac:(cbn; lia)) as P.
    assert (NF : prebuffer s0 <> NoFuel).
    { unfold prebuffer, s0. cbn [s_kind s_size s_idx s_buf s_bufsize]. change (0 <? 0) with false. cbn [andb]. destruct ((0 =? bs) && (0 =? 0)); cbn [bind];
      unfold memcpy_to; destruct (_ || _); cbn [bind]; try discriminate; destruct (firstn _ _); discriminate. }
    destruct (prebuffer s0) as [[st more]| |]; [|destruct P|congruence]. destruct P as [K _]. cbn [fst] in K. exists st. split; [reflexivity|].
    eapply keeps_wide; [|exact K]. split; [exact Sf|cbn; lia]. }
  apply G. unfold buffer_size. lia.
Qed.
Theorem file_no_ub fuel content : dtd_parse_file fuel content <> UB.
Proof.
  unfold dtd_parse_file. destruct (file_safe content) as (st & -> & W). cbn [bind]. unfold parse_common.
  pose proof (dtd_w fuel st load_new 0 W) as H. destruct (dtd_loop fuel st load_new 0) as [[[st' l]|]| |]; cbn [bindo bind]; [apply finish_no_ub|discriminate|destruct H|discriminate].
Qed.
