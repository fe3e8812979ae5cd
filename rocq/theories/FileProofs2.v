(** File streams of any size: reading is exact except next to the end of the buffer. *)
From Verif Require Import Prelude StrModel StrSpec StrProofs StreamModel StreamProofs.
Open Scope Z_scope.
Local Arguments Z.of_nat : simpl never.
Local Arguments Z.to_nat : simpl never.
Local Arguments Z.add : simpl never.
Local Arguments Z.sub : simpl never.
Local Arguments Z.eqb : simpl never.
Local Arguments Z.ltb : simpl never.
Local Arguments Z.leb : simpl never.

(** the text is empty or ends with white space *)
Definition tail_ws (s : bytes) : Prop := s = [] \/ exists a x, s = a ++ [x] /\ is_ws x = true.
Definition occurs (c s : bytes) : Prop := exists u v, s = u ++ c ++ v.
(** white space at the start is followed by nothing or by a tag *)
Definition lead (s : bytes) : Prop :=
  forall w c v, s = w ++ c :: v -> w <> [] -> forallb is_ws w = true -> is_ws c = false -> c = "<"%char.
Definition tidy (s : bytes) : Prop := forall u v, s = u ++ ">"%char :: v -> lead v.
(** no comment, CDATA section, processing instruction or text after white space in sight *)
Definition bare (s : bytes) : Prop :=
  ~ occurs (s2b "<!--") s /\ ~ occurs (s2b "<![CDATA[") s /\ ~ occurs (s2b "<?") s /\ tidy s.
Lemma tail_ws_suffix a s : tail_ws (a ++ s) -> tail_ws s.
Proof.
  intros [H|(b & x & E & W)].
  - left. destruct a; [exact H|discriminate].
  - destruct s as [|c s]; [left; reflexivity|right].
    destruct (@exists_last _ (c :: s) ltac:(discriminate)) as (u & y & Eu). exists u, y. split; [exact Eu|].
    rewrite Eu in E. rewrite app_assoc in E. apply app_inj_tail in E. destruct E as [_ ->]. exact W.
Qed.
Lemma occurs_suffix c a s : occurs c s -> occurs c (a ++ s).
Proof. intros (u & v & ->). exists (a ++ u), v. rewrite <- app_assoc. reflexivity. Qed.
Lemma bare_suffix a s : bare (a ++ s) -> bare s.
Proof.
  intros (A & B & C & D). split; [|split; [|split]]; try (intros H; (apply A + apply B + apply C); apply occurs_suffix, H).
  intros u v ->. apply (D (a ++ u) v), app_assoc.
Qed.

Definition left_of (k : kind) (left : bytes) : Prop := k = FD (Some left) \/ (k = FD None /\ left = []).
(** [win] is the unread part of the buffer and [left] the unread part of the file *)
Definition fmem (st : stream) (win left : bytes) : Prop :=
  exists pre post, left_of (s_kind st) left /\ s_buf st = pre ++ win ++ post /\
    s_idx st = Z.of_nat (length pre) /\ s_size st = Z.of_nat (length pre) + Z.of_nat (length win) /\
    Z.of_nat (length (s_buf st)) = s_bufsize st + 1 /\ s_size st <= s_bufsize st /\ 64 <= s_bufsize st /\
    tail_ws (win ++ left).

Lemma memcpy_append l m p x : length x = length m -> memcpy_to (l ++ m ++ p) (Z.of_nat (length l)) x = Ok (l ++ x ++ p).
Proof.
  intros E. apply memcpy_app; [reflexivity|symmetry; exact E].
Qed.
Lemma split_len {A} n (l : list A) : (n <= length l)%nat -> exists a b, l = a ++ b /\ length a = n.
Proof. intros L. exists (firstn n l), (skipn n l). rewrite firstn_skipn, firstn_length. split; [reflexivity|lia]. Qed.

(** what reading more of the file does to the unread part of the buffer *)
Definition grown (win left win' left' : bytes) (more : bool) : Prop :=
  exists x, win' = win ++ x /\ left = x ++ left' /\ more = (match x with [] => false | _ => true end) /\
    (more = false -> left = []) /\ (left' = [] \/ (64 <= length win')%nat).
Lemma grown_same win left win' left' more : grown win left win' left' more -> win' ++ left' = win ++ left.
Proof. intros (x & -> & -> & _). rewrite <- app_assoc. reflexivity. Qed.

Lemma read_ok st buf bs win post left : Z.of_nat (length buf) = bs + 1 -> buf = win ++ post ->
  Z.of_nat (length win) < bs -> 64 <= bs -> tail_ws (win ++ left) ->
  exists st' win' left' more,
    (b <- memcpy_to buf (Z.of_nat (length win)) (firstn (Z.to_nat (bs - Z.of_nat (length win))) left) ;;
    match firstn (Z.to_nat (bs - Z.of_nat (length win))) left with
    | [] => Ok (Stream (FD None) b bs (Z.of_nat (length win)) 0 (s_prev st), false)
    | _ => Ok (Stream (FD (Some (skipn (length (firstn (Z.to_nat (bs - Z.of_nat (length win))) left)) left))) b bs
                 (Z.of_nat (length win) + Z.of_nat (length (firstn (Z.to_nat (bs - Z.of_nat (length win))) left))) 0 (s_prev st), true)
    end) = Ok (st', more) /\ fmem st' win' left' /\ grown win left win' left' more /\ s_idx st' = 0.
Proof.
  intros Lb E Lw L64 T. set (k := Z.to_nat (bs - Z.of_nat (length win))).
  assert (Lp : (length post = k + 1)%nat) by (rewrite E, app_length in Lb; lia).
  assert (Lf : (length (firstn k left) <= k)%nat) by (rewrite firstn_length; lia).
  pose proof (firstn_skipn k left) as FS.
  assert (Full : skipn k left = [] \/ length (firstn k left) = k).
  { rewrite firstn_length. destruct (Nat.le_gt_cases (length left) k); [left; apply skipn_all2; lia|right; lia]. }
  assert (SL : skipn (length (firstn k left)) left = skipn k left).
  { destruct Full as [F|F]; [|rewrite F; reflexivity]. rewrite F in *. rewrite app_nil_r in FS. rewrite FS at 1.
    apply skipn_all. }
  rewrite SL. clear SL. set (x := firstn k left) in *. set (l' := skipn k left) in *. clearbody x l'.
  destruct (split_len (length x) post ltac:(lia)) as (m & p & Ep & Em). subst post.
  rewrite E, (memcpy_append win m p x) by lia. cbn [bind].
  assert (Lbuf : Z.of_nat (length (win ++ x ++ p)) = bs + 1).
  { rewrite E in Lb. rewrite !app_length in *. lia. }
  destruct x as [|c x].
  - eexists _, win, [], false. split; [reflexivity|].
    assert (l' = []) by (destruct Full as [F|F]; [exact F|cbn in F; lia]). subst l'. cbn in FS. subst left.
    split; [|split; [exists []; rewrite app_nil_r; auto 10|reflexivity]].
    exists [], p. cbn [s_kind s_buf s_bufsize s_size s_idx app length]. cbn [app] in Lbuf.
    repeat split; try assumption; try lia. right. auto.
  - eexists _, (win ++ c :: x), l', true. split; [reflexivity|].
    split; [|split; [|reflexivity]].
    + exists [], p. cbn [s_kind s_buf s_bufsize s_size s_idx app length].
      rewrite <- app_assoc. rewrite app_length. rewrite <- FS in T.
      repeat split; try assumption; try (simpl length in *; lia). left. reflexivity. rewrite <- app_assoc. exact T.
    + exists (c :: x). repeat split; auto; try discriminate.
      destruct Full as [F|F]; [left; exact F|right]. rewrite app_length, F. unfold k. lia.
Qed.

Lemma fmem_prebuffer st win left : fmem st win left ->
  exists st' win' left' more, prebuffer st = Ok (st', more) /\ fmem st' win' left' /\ grown win left win' left' more /\
    (st' = st \/ s_idx st' = 0).
Proof.
  intros M. pose proof M as (pre & post & K & B & I & Z & Lb & Ls & L64 & T). unfold prebuffer.
  destruct K as [K|[K ->]]; rewrite K.
  2: { exists st, win, [], false. split; [reflexivity|]. split; [exact M|]. split; [|auto].
       exists []. rewrite app_nil_r. auto 10. }
  assert (R : forall r : res (stream * bool), (exists st' win' left' more, r = Ok (st', more) /\ fmem st' win' left' /\
     grown win left win' left' more /\ s_idx st' = 0) -> exists st' win' left' more, r = Ok (st', more) /\ fmem st' win' left' /\
     grown win left win' left' more /\ (st' = st \/ s_idx st' = 0)).
  { intros r (a & b & c & d & H1 & H2 & H3 & H4). exists a, b, c, d. auto. }
  apply R. clear R. cbv zeta.
  destruct (Z.ltb_spec 0 (s_idx st)) as [L1|L1]; [destruct (Z.ltb_spec 0 (s_size st - s_idx st)) as [L2|L2]|]; cbn [andb].
  - rewrite B, mem_sub_app by lia. cbn [bind].
    assert (E : memcpy_to (pre ++ win ++ post) 0 win = Ok (win ++ skipn (length win) (pre ++ win ++ post))).
    { unfold memcpy_to. change (0 <? 0) with false. cbn [orb].
      destruct (Z.ltb_spec (Z.of_nat (length (pre ++ win ++ post))) (0 + Z.of_nat (length win))) as [F|F]; [rewrite !app_length in F; lia|].
      reflexivity. }
    rewrite E. cbn [bind]. clear E. replace (s_size st - s_idx st) with (Z.of_nat (length win)) by lia.
    apply (read_ok st _ (s_bufsize st) win (skipn (length win) (pre ++ win ++ post)) left); auto; [|lia].
    rewrite app_length, skipn_length, <- B. rewrite B, !app_length in Lb |- *. lia.
  - assert (win = []) by (destruct win; [reflexivity|simpl length in Z; lia]). subst win. simpl length in Z. rewrite Z.add_0_r in Z.
    replace (s_idx st =? 0) with false by (symmetry; apply Z.eqb_neq; lia). rewrite andb_false_r. cbn [bind].
    replace (s_size st =? s_idx st) with true by (symmetry; apply Z.eqb_eq; lia).
    apply (read_ok st (s_buf st) (s_bufsize st) [] (s_buf st) left); auto. cbn. lia.
  - assert (pre = []) by (destruct pre; [reflexivity|simpl length in I; lia]). subst pre. cbn [length app] in *.
    change (Z.of_nat 0) with 0 in *. rewrite Z.add_0_l in Z. rewrite I, Z. change (0 =? 0) with true. rewrite andb_true_r.
    destruct (Z.eqb_spec (Z.of_nat (length win)) (s_bufsize st)) as [E|E]; cbn [bind].
    + apply (read_ok st _ (s_bufsize st + s_bufsize st) win (post ++ repeat NUL (Z.to_nat (s_bufsize st))) left); auto; try lia.
      * rewrite app_length, repeat_length. lia.
      * rewrite B, app_assoc. reflexivity.
    + replace (if Z.of_nat (length win) =? 0 then 0 else Z.of_nat (length win)) with (Z.of_nat (length win))
        by (destruct (Z.eqb_spec (Z.of_nat (length win)) 0); congruence).
      apply (read_ok st _ (s_bufsize st) win post left); auto. lia.
Qed.
Lemma fmem_pos st win left p : fmem st win left -> fmem (set_pos st (s_idx st) p) win left.
Proof. intros (pre & post & H). exists pre, post. exact H. Qed.
Lemma fmem_advance st a win left i p : fmem st (a ++ win) left -> i = s_idx st + Z.of_nat (length a) ->
  fmem (set_pos st i p) win left.
Proof.
  intros (pre & post & K & B & I & Z & Lb & Ls & L64 & T) ->. exists (pre ++ a), post.
  cbn [set_pos s_kind s_buf s_bufsize s_size s_idx]. rewrite B, I, Z in *. rewrite !app_length in *.
  rewrite <- !app_assoc in *. repeat split; try assumption; try lia. eapply tail_ws_suffix, T.
Qed.
Lemma fmem_turns st win left : fmem st win left -> (length win + 2 * length left + 3 <= turns st)%nat.
Proof.
  intros (pre & post & K & B & I & Z & Lb & Ls & L64 & T). unfold turns.
  destruct K as [K|[K ->]]; rewrite K; cbn [length]; lia.
Qed.

(** [s] is what remains to be read *)
Definition fm (b : bool) (st : stream) (s : bytes) : Prop :=
  (b = true -> bare s) /\ exists win left, s = win ++ left /\ fmem st win left.
Lemma fm_tail b st s : fm b st s -> tail_ws s.
Proof. intros (_ & win & left & -> & pre & post & K & B & I & Z & Lb & Ls & L64 & T). exact T. Qed.
Lemma fm_turns b st s : fm b st s -> (length s + 2 < turns st)%nat.
Proof. intros (_ & win & left & -> & M). apply fmem_turns in M. rewrite app_length. lia. Qed.
Lemma fm_idx b st s : fm b st s -> 0 <= s_idx st.
Proof. intros (_ & win & left & -> & pre & post & K & B & I & Z). lia. Qed.
Lemma fm_sub b st a s win left st' : fm b st (a ++ s) -> s = win ++ left -> fmem st' win left -> fm b st' s.
Proof. intros [H _] E M. split; [intros Eb; apply (bare_suffix a), H, Eb|eauto]. Qed.
Lemma fm_bare b st s : fm b st s -> b = true -> bare s.
Proof. intros [H _]. exact H. Qed.

(** nothing moved, or the buffer was refilled *)
Definition at_rest (st st' : stream) : Prop := (s_buf st' = s_buf st /\ s_idx st' = s_idx st) \/ s_idx st' = 0.
Lemma at_rest_refl st : at_rest st st.
Proof. left. auto. Qed.
Lemma at_rest_trans a b c : at_rest a b -> at_rest b c -> at_rest a c.
Proof. intros [[A1 A2]|A] [[B1 B2]|B]; unfold at_rest; [left|right|right|right]; try split; congruence. Qed.
(** the bytes from position [k] to the current one are white space *)
Definition white_back (k : Z) (st : stream) : Prop :=
  forall i, k <= i < s_idx st -> exists c, nth_error (s_buf st) (Z.to_nat i) = Some c /\ is_ws c = true.
Lemma white_rest k st st' : 0 <= k -> at_rest st st' -> white_back k st -> white_back k st'.
Proof. intros K [[A1 A2]|A] W i L; [rewrite A1; apply W; rewrite <- A2; exact L|lia]. Qed.
Lemma white_refl st : white_back (s_idx st) st.
Proof. intros i L. lia. Qed.

Definition solid (c : bytes) : Prop := nul_free c /\ c <> [] /\ forallb (fun x => negb (is_ws x)) c = true /\ (length c <= 64)%nat.

(** comparing with too few bytes left: the last one is white space *)
Lemma memcmp_over : forall c s t z i n, nul_free c -> forallb (fun x => negb (is_ws x)) c = true ->
  n = i + Z.of_nat (length c) -> (length s < length c)%nat -> s <> [] -> tail_ws s ->
  memcmp_loop (c ++ NUL :: t) (s ++ z) i n = Ok false.
Proof.
  induction c as [|x c IH]; intros s t z i n Hc Hw E L Hs T; [simpl in L; lia|].
  apply nul_free_cons in Hc. destruct Hc as [Hx Hc]. cbn [forallb] in Hw. apply andb_true_iff in Hw. destruct Hw as [Wx Hw].
  destruct s as [|y s]; [contradiction|]. simpl length in *. rewrite Nat2Z.inj_succ in E.
  simpl. rewrite Hx. destruct (Ascii.eqb_spec y NUL) as [Ey|Ey].
  - subst y. reflexivity.
  - destruct (Ascii.eqb_spec x y) as [->|Exy]; simpl; [|reflexivity].
    assert (s <> []).
    { intros ->. destruct T as [T|(a & b & Ea & Wb)]; [discriminate|]. destruct a as [|? [|]]; inversion Ea; subst.
      rewrite Wb in Wx. discriminate. }
    replace (i + 1 =? n) with false by (symmetry; apply Z.eqb_neq; lia).
    apply IH; auto; try lia. apply (tail_ws_suffix [y]), T.
Qed.

Lemma f_common acc b st s c : fm b st s -> solid c ->
  exists st' v, common_inspect acc st c = Ok (st', v) /\ (0 <? v) = (match after c s with Some _ => true | None => false end) /\
    (v = insp s c \/ ((length s < length c)%nat /\ v = 0)) /\
    (if acc then fm b st' (rest_of s c)
     else fm b st' s /\ at_rest st st' /\ (after c s <> None -> fm b (stream_accept st') (rest_of s c))).
Proof.
  intros F (Hc & Hne & Hw & L64). pose proof F as (Hb & win & left & -> & M). unfold common_inspect.
  assert (In : forall st win left, fmem st win left -> (Z.of_nat (length c) + s_idx st <= s_size st) ->
     (win ++ left) = (win ++ left) -> (b = true -> bare (win ++ left)) ->
     exists st' v, (p <- ptr_at (s_buf st) (s_idx st) ;;
        r <- axl_memcmp (cs c) p (Z.of_nat (length c)) ;;
        if (r : bool) then let st := set_pos st (s_idx st) (Z.of_nat (length c)) in Ok (if acc then stream_accept st else st, 1)
        else Ok (st, 0)) = Ok (st', v) /\ v = insp (win ++ left) c /\
      (if acc then fm b st' (rest_of (win ++ left) c)
       else fm b st' (win ++ left) /\ (s_buf st' = s_buf st /\ s_idx st' = s_idx st) /\ (after c (win ++ left) <> None -> fm b (stream_accept st') (rest_of (win ++ left) c)))).
  { clear - Hc Hne. intros st win left M L _ Hb. pose proof M as (pre & post & K & B & I & Z & Lb & Ls & L64 & T).
    assert (Lw : (length c <= length win)%nat) by lia.
    assert (A : after c (win ++ left) = match after c win with Some r => Some (r ++ left) | None => None end).
    { clear - Lw. revert win Lw. induction c as [|x c IH]; intros [|y win] L; simpl in *; try reflexivity; try lia.
      destruct (Ascii.eqb x y); [apply IH; lia|reflexivity]. }
    rewrite B, ptr_at_app by assumption. cbn [bind]. rewrite memcmp_cs by auto. cbn [bind]. unfold insp, rest_of. rewrite A.
    destruct (after c win) as [r|] eqn:A2.
    + apply after_Some in A2. subst win. eexists _, 1. split; [reflexivity|]. split; [reflexivity|].
      assert (Fa : fm b (stream_accept (set_pos st (s_idx st) (Z.of_nat (length c)))) (r ++ left)).
      { rewrite <- app_assoc in Hb. split; [intros E; apply (bare_suffix c), Hb, E|]. exists r, left. split; [reflexivity|].
        unfold stream_accept. eapply fmem_advance; [apply fmem_pos, M|reflexivity]. }
      destruct acc; [exact Fa|]. split; [|split; [split; [exact B|reflexivity]|intros _; exact Fa]].
      split; [exact Hb|]. eexists _, _. split; [reflexivity|]. apply fmem_pos, M.
    + eexists _, 0. split; [reflexivity|].
      replace (length (win ++ left) <? length c)%nat with false by (symmetry; apply Nat.ltb_ge; rewrite app_length; lia).
      split; [reflexivity|].
      assert (Fs : fm b st (win ++ left)) by (split; [exact Hb|eauto]).
      destruct acc; [exact Fs|]. split; [exact Fs|]. split; [split; [exact B|reflexivity]|congruence]. }
  destruct (Z.ltb_spec (s_size st) (Z.of_nat (length c) + s_idx st)) as [L|L].
  - destruct (fmem_prebuffer _ _ _ M) as (st1 & win1 & left1 & more & E & M1 & G & Ix). rewrite E. cbn [bind].
    assert (Ix' : at_rest st st1) by (destruct Ix as [->|Ix]; [apply at_rest_refl|right; exact Ix]).
    pose proof (grown_same _ _ _ _ _ G) as S1.
    assert (F1 : fm b st1 (win ++ left)) by (split; [exact Hb|]; exists win1, left1; auto).
    assert (Short : forall v, (length (win ++ left) < length c)%nat -> v = -1 \/ v = 0 ->
      exists st' v', Ok (st1, v) = Ok (st', v') /\ (0 <? v') = (match after c (win ++ left) with Some _ => true | None => false end) /\
      (v' = insp (win ++ left) c \/ ((length (win ++ left) < length c)%nat /\ v' = 0)) /\
      (if acc then fm b st' (rest_of (win ++ left) c)
       else fm b st' (win ++ left) /\ at_rest st st' /\
         (after c (win ++ left) <> None -> fm b (stream_accept st') (rest_of (win ++ left) c)))).
    { intros v Lv Hv. exists st1, v. split; [reflexivity|]. unfold rest_of. rewrite after_short by exact Lv.
      split; [destruct Hv as [->| ->]; reflexivity|].
      split; [destruct Hv as [->| ->]; [left|right; auto]; unfold insp; rewrite after_short by exact Lv;
        replace (length (win ++ left) <? length c)%nat with true by (symmetry; apply Nat.ltb_lt; exact Lv); reflexivity|]. destruct acc; [exact F1|]. split; [exact F1|]. split; [exact Ix'|congruence]. }
    pose proof M1 as (pre & post & K & B & I & Z & Lb & Ls & L64' & T).
    destruct M as (pre0 & post0 & _ & _ & I0 & Z0 & _).
    destruct more; cbn [negb bind].
    + destruct (Nat.le_gt_cases (length c) (length win1)) as [Lw|Lw].
      * rewrite <- S1 in Hb |- *.
        destruct (In st1 win1 left1 M1 ltac:(lia) eq_refl Hb) as (st2 & v & E2 & Ev & R). exists st2, v.
        split; [exact E2|]. rewrite Ev, insp_pos. split; [reflexivity|]. split; [left; reflexivity|].
        destruct acc; [exact R|]. destruct R as (R1 & R2 & R3). split; [exact R1|]. split; [apply (at_rest_trans _ _ _ Ix'); left; exact R2|exact R3].
      * destruct G as (x & Ex & El & Em & _ & G). assert (left1 = []) as -> by (destruct G; [assumption|lia]).
        rewrite app_nil_r in *. rewrite B, ptr_at_app by assumption. cbn [bind].
        unfold axl_memcmp, cs. rewrite memcmp_over; auto; [|].
        -- cbn [bind]. apply Short; [rewrite <- S1; exact Lw|auto].
        -- rewrite Ex. destruct x; [discriminate|]. destruct win; discriminate.
    + destruct G as (x & Ex & El & Em & G & _). clear El. specialize (G eq_refl).
      apply Short; [rewrite G, app_nil_r; lia|auto].
  - cbn [bind]. destruct (In st win left M ltac:(lia) eq_refl Hb) as (st2 & v & E2 & Ev & R). exists st2, v.
    split; [exact E2|]. rewrite Ev, insp_pos. split; [reflexivity|]. split; [left; reflexivity|].
    destruct acc; [exact R|]. destruct R as (R1 & R2 & R3). split; [exact R1|]. split; [left; exact R2|exact R3].
Qed.
Lemma f_inspect b st s c : fm b st s -> solid c ->
  exists st' v, stream_inspect st c = Ok (st', v) /\ (0 <? v) = (match after c s with Some _ => true | None => false end) /\
    (v = insp s c \/ ((length s < length c)%nat /\ v = 0)) /\ fm b st' (rest_of s c).
Proof. apply (f_common true). Qed.
Lemma f_peek b st s c : fm b st s -> solid c ->
  exists st' v, stream_peek st c = Ok (st', v) /\ (0 <? v) = (match after c s with Some _ => true | None => false end) /\
    fm b st' s /\ at_rest st st' /\ (after c s <> None -> fm b (stream_accept st') (rest_of s c)).
Proof.
  intros F S. destruct (f_common false b st s c F S) as (st' & v & E & Ev & _ & R1 & R2 & R3). exists st', v. auto 10.
Qed.

(** ** white space *)
Lemma f_spaces_loop b : forall n win left st f, (length (win ++ left) <= n)%nat -> fm b st (win ++ left) -> fmem st win left ->
  (length (win ++ left) < f)%nat ->
  exists st', spaces_loop f st (s_size st - s_idx st) = Ok st' /\ fm b st' (skip (win ++ left)) /\
    (win <> [] -> skip (win ++ left) = win ++ left -> st' = st) /\
    (forall k, 0 <= k -> white_back k st -> white_back k st').
Proof.
  induction n as [|n IH]; intros win left st f Ln F M L; (destruct f as [|f]; [lia|]);
    pose proof M as (pre & post & K & B & I & Z & Lb & Ls & L64 & T); cbn [spaces_loop];
    (assert (Wp : forall st1, st1 = st \/ s_idx st1 = 0 -> forall k, 0 <= k -> white_back k st -> white_back k st1)
      by (intros st1 Ix k Hk Wk; apply (white_rest k st st1 Hk); [destruct Ix as [->|Ix]; [apply at_rest_refl|right; exact Ix]|exact Wk])).
  - destruct win; [|simpl in Ln; lia]. destruct left; [|simpl in Ln; lia].
    destruct (Z.ltb_spec (s_size st - s_idx st - 1) 0) as [L'|L']; [|simpl in Z; lia].
    destruct (fmem_prebuffer _ _ _ M) as (st1 & win1 & left1 & more & E & M1 & G & Ix). rewrite E. cbn [bind].
    pose proof (grown_same _ _ _ _ _ G) as S1. destruct win1; [|discriminate]. destruct left1; [|discriminate].
    destruct G as (x & Ex & El & -> & _). destruct x; [|discriminate]. exists st1. split; [reflexivity|].
    split; [|split; [congruence|exact (Wp _ Ix)]]. split; [intros E'; apply F, E'|]. exists [], []. auto.
  - assert (Step : forall st0 c w l, fmem st0 (c :: w) l -> fm b st0 (c :: w ++ l) -> (length (c :: w ++ l) <= S n)%nat ->
       (length (c :: w ++ l) < S f)%nat ->
       exists st', (ch <- rd (s_buf st0) (s_idx st0) ;;
         if is_ws ch then spaces_loop f (set_pos st0 (s_idx st0 + 1) 0) (s_size st0 - s_idx st0 - 1) else Ok st0) = Ok st' /\
         fm b st' (skip (c :: w ++ l)) /\ (skip (c :: w ++ l) = c :: w ++ l -> st' = st0) /\
         (forall k, 0 <= k -> white_back k st0 -> white_back k st')).
    { clear - IH. intros st0 c w l M F Ln L. pose proof M as (pre & post & K & B & I & Z & Lb & Ls & L64 & T).
      rewrite B, <- app_comm_cons, rd_app by assumption. cbn [bind skip].
      destruct (is_ws c) eqn:W; [|exists st0; auto].
      assert (M1 : fmem (set_pos st0 (s_idx st0 + 1) 0) w l) by (apply (fmem_advance st0 [c]); [exact M|reflexivity]).
      replace (s_size st0 - s_idx st0 - 1) with (s_size (set_pos st0 (s_idx st0 + 1) 0) - s_idx (set_pos st0 (s_idx st0 + 1) 0)) by (cbn; lia).
      assert (F1 : fm b (set_pos st0 (s_idx st0 + 1) 0) (w ++ l)).
      { apply (fm_sub b st0 [c] (w ++ l) w l); [exact F|reflexivity|exact M1]. }
      destruct (IH w l _ f ltac:(simpl in Ln; lia) F1 M1 ltac:(simpl in L; lia)) as (st' & E & F' & _ & Wk). exists st'.
      split; [exact E|]. split; [exact F'|]. split.
      { intros X. exfalso. apply (f_equal (@length _)) in X. pose proof (skip_len (w ++ l)). simpl in X. lia. }
      intros k Hk W0. apply Wk; [exact Hk|]. intros i Li. cbn [set_pos s_idx s_buf] in *.
      destruct (Z.eq_dec i (s_idx st0)) as [->|Ni]; [|apply W0; lia]. exists c. split; [|exact W].
      rewrite B, I, Nat2Z.id, nth_error_app2, Nat.sub_diag by lia. reflexivity. }
    destruct win as [|c win].
    + cbn [app] in *. destruct (Z.ltb_spec (s_size st - s_idx st - 1) 0) as [L'|L']; [|simpl in Z; lia].
      destruct (fmem_prebuffer _ _ _ M) as (st1 & win1 & left1 & more & E & M1 & G & Ix). rewrite E. cbn [bind].
      pose proof (grown_same _ _ _ _ _ G) as S1. cbn [app] in S1.
      destruct G as (x & Ex & El & -> & G & _). cbn [app] in Ex. subst win1. destruct x as [|c x].
      * cbn [bind]. rewrite (G eq_refl) in *. exists st1. split; [reflexivity|]. split; [|split; [congruence|exact (Wp _ Ix)]].
        split; [intros E'; apply F, E'|]. destruct left1; [|discriminate]. exists [], []. auto.
      * cbn [bind]. rewrite El in *. cbn [app] in *.
        destruct (Step st1 c x left1 M1) as (st' & E' & F' & _ & Wk).
        { split; [apply F|]. exists (c :: x), left1. auto. }
        { exact Ln. } { exact L. }
        exists st'. split; [exact E'|]. split; [exact F'|]. split; [congruence|].
        intros k Hk W0. apply Wk; [exact Hk|]. apply (Wp _ Ix); assumption.
    + simpl length in Z. rewrite Nat2Z.inj_succ in Z.
      destruct (Z.ltb_spec (s_size st - s_idx st - 1) 0) as [L'|L']; [lia|]. cbn [bind].
      destruct (Step st c win left M F Ln L) as (st' & E' & F' & Same & Wk). exists st'.
      split; [exact E'|]. split; [exact F'|]. split; [intros _; exact Same|exact Wk].
Qed.
Lemma f_spaces b st s : fm b st s -> exists st', consume_spaces st = Ok st' /\ fm b st' (skip s).
Proof.
  intros F. pose proof F as (Hb & win & left & -> & M).
  destruct (f_spaces_loop b _ win left st (turns st) (le_n _) F M) as (st' & E & F' & _); [|eauto].
  pose proof (fm_turns _ _ _ F). lia.
Qed.
(** the position after stream_remains is kept if there is no white space *)
Lemma f_remains b st s : fm b st s -> exists st', stream_remains st = Ok (st', match s with [] => false | _ => true end) /\
  fm b st' s /\ (s <> [] -> exists st2, consume_spaces st' = Ok st2 /\ fm b st2 (skip s) /\ (skip s = s -> st2 = st') /\ white_back (s_idx st') st2).
Proof.
  intros F. pose proof F as (Hb & win & left & -> & M). pose proof M as (pre & post & K & B & I & Z & Lb & Ls & L64 & T).
  unfold stream_remains.
  assert (C : forall st' w l, fmem st' w l -> w <> [] -> (b = true -> bare (w ++ l)) ->
     exists st2, consume_spaces st' = Ok st2 /\ fm b st2 (skip (w ++ l)) /\ (skip (w ++ l) = w ++ l -> st2 = st') /\
       white_back (s_idx st') st2).
  { clear. intros st' w l M N Hb. assert (F : fm b st' (w ++ l)) by (split; [exact Hb|eauto]).
    destruct (f_spaces_loop b _ w l st' (turns st') (le_n _) F M) as (st2 & E & F' & S & Wk); [pose proof (fm_turns _ _ _ F); lia|].
    exists st2. split; [exact E|]. split; [exact F'|]. split; [auto|]. apply Wk; [apply (fm_idx _ _ _ F)|apply white_refl]. }
  destruct win as [|c win].
  - replace (s_size st <=? s_idx st) with true by (symmetry; apply Z.leb_le; cbn in Z; lia).
    destruct (fmem_prebuffer _ _ _ M) as (st1 & win1 & left1 & more & E & M1 & G & _). rewrite E.
    pose proof (grown_same _ _ _ _ _ G) as S1. cbn [app] in *.
    destruct G as (x & Ex & El & -> & G & _). cbn [app] in Ex. subst win1. exists st1.
    rewrite <- S1 in Hb |- *. split; [|split].
    + destruct x; [|reflexivity]. cbn [app]. rewrite (G eq_refl) in S1. cbn [app] in S1. rewrite S1. reflexivity.
    + split; [exact Hb|eauto].
    + intros N. apply C; auto. intros ->. apply N. rewrite (G eq_refl) in El. cbn [app] in *. congruence.
  - simpl length in Z. rewrite Nat2Z.inj_succ in Z. replace (s_size st <=? s_idx st) with false by (symmetry; apply Z.leb_gt; lia).
    exists st. split; [reflexivity|]. split; [exact F|]. intros _. apply C; auto. discriminate.
Qed.

(** ** reading up to a terminator *)
Definition short (chunks : list bytes) : Prop := Forall (fun c => (length c <= 2)%nat) chunks.

Lemma after_within c : forall u l, (length c <= length u)%nat -> after c (u ++ l) = match after c u with Some r => Some (r ++ l) | None => None end.
Proof.
  induction c as [|x c IH]; intros [|y u] l L; simpl in *; try reflexivity; try lia.
  destruct (Ascii.eqb x y); [apply IH; lia|reflexivity].
Qed.
Lemma after_less c u l : after c (u ++ l) = None -> after c u = None.
Proof.
  intros H. destruct (after c u) as [r|] eqn:E; [|reflexivity]. apply after_Some in E. subst u.
  rewrite <- app_assoc, after_app in H. discriminate.
Qed.
Lemma hit_less chunks u l : forall it, hit chunks (u ++ l) it = None -> hit chunks u it = None.
Proof.
  induction chunks as [|c chunks IH]; intros it H; [reflexivity|]. cbn [hit] in *. destruct (ws_chunk c); [apply IH, H|].
  destruct (after c (u ++ l)) eqn:A; [discriminate|]. rewrite (after_less _ _ _ A). apply IH, H.
Qed.
Lemma hit_window chunks u l : u <> [] -> short chunks -> forall it i n, hit chunks (u ++ l) it = Some (i, n) ->
  hit chunks u it = Some (i, n) \/
  (n = 2%nat /\ length u = 1%nat /\ exists c, In c chunks /\ ws_chunk c = false /\ length c = 2%nat).
Proof.
  intros Hu. induction chunks as [|c chunks IH]; intros Sh it i n H; [discriminate|].
  pose proof (Forall_inv Sh) as Lc. apply Forall_inv_tail in Sh. cbn [hit] in *. cbn beta in Lc.
  assert (R : hit chunks (u ++ l) (it + 1) = Some (i, n) ->
    hit chunks u (it + 1) = Some (i, n) \/ (n = 2%nat /\ length u = 1%nat /\ exists c0, In c0 (c :: chunks) /\ ws_chunk c0 = false /\ length c0 = 2%nat)).
  { intros H'. destruct (IH Sh _ _ _ H') as [E|(E1 & E2 & c0 & E3 & E4)]; [left; exact E|right].
    split; [exact E1|]. split; [exact E2|]. exists c0. split; [right; exact E3|exact E4]. }
  destruct (ws_chunk c) eqn:Wc; [apply R, H|].
  destruct (Nat.le_gt_cases (length c) (length u)) as [L|L].
  - rewrite after_within in H by exact L. destruct (after c u); [left; exact H|apply R, H].
  - destruct (after c (u ++ l)) eqn:A.
    + inversion H; subst. right. destruct u as [|y u]; [contradiction|]. simpl in L. split; [lia|]. split; [simpl; lia|].
      exists c. split; [left; reflexivity|]. split; [exact Wc|lia].
    + rewrite (after_less _ _ _ A). apply R, H.
Qed.
Lemma max_ge : forall l c acc, In c l -> c <= fold_left Z.max l acc.
Proof.
  assert (G : forall l acc, acc <= fold_left Z.max l acc).
  { induction l as [|x l IH]; intros acc; simpl; [lia|]. specialize (IH (Z.max acc x)). lia. }
  induction l as [|x l IH]; intros c acc H; [destruct H|]. simpl. destruct H as [->|H]; [|apply IH, H].
  specialize (G l (Z.max acc c)). lia.
Qed.
Lemma stop_less chunks u l : u <> [] -> stop_at chunks (u ++ l) = None -> stop_at chunks u = None.
Proof.
  intros Hu H. unfold stop_at in *. destruct u as [|y u]; [contradiction|]. cbn [app] in *.
  destruct (existsb ws_chunk chunks && is_ws y); [discriminate|]. rewrite app_comm_cons in H. apply (hit_less _ _ _ _ H).
Qed.
Lemma stop_window chunks u l i n : Forall good_chunk chunks -> u <> [] -> short chunks -> stop_at chunks (u ++ l) = Some (i, n) ->
  stop_at chunks u = Some (i, n) \/
  (n = 2%nat /\ length u = 1%nat /\ 2 <= max_length chunks /\
   match stop_at chunks u with None => True | Some (_, n') => n' = 1%nat end).
Proof.
  intros G Hu Sh H. assert (SL := stop_len chunks u). unfold stop_at in *. destruct u as [|y u]; [contradiction|]. cbn [app] in *.
  destruct (existsb ws_chunk chunks && is_ws y); [left; exact H|].
  rewrite app_comm_cons in H. destruct (hit_window _ _ _ Hu Sh _ _ _ H) as [E|(E1 & E2 & c & I & W & L)]; [left; exact E|right].
  split; [exact E1|]. split; [exact E2|]. split.
  - unfold max_length. apply (Z.le_trans _ (chunk_len c)); [unfold chunk_len; rewrite W, L; reflexivity|].
    apply max_ge, in_map, I.
  - destruct (hit chunks (y :: u) 0) as [[i' n']|]; [|exact Logic.I]. specialize (SL i' n' G eq_refl). lia.
Qed.

Lemma until_first chunks : forall s t it a b, until chunks s = Some (t, it, a, b) ->
  forall j, (j < length t)%nat -> stop_at chunks (skipn j s) = None.
Proof.
  induction s as [|c s IH]; intros t it a b H j L; [discriminate|]. cbn [until] in H.
  destruct (stop_at chunks (c :: s)) as [[i n]|] eqn:E; [inversion H; subst; simpl in L; lia|].
  destruct (until chunks s) as [[[[t' i'] a'] b']|] eqn:U; [|discriminate]. inversion H; subst.
  destruct j as [|j]; [exact E|]. cbn [skipn]. apply (IH _ _ _ _ eq_refl). simpl in L. lia.
Qed.
Lemma until_never chunks : forall s, until chunks s = None -> forall j, (j < length s)%nat -> stop_at chunks (skipn j s) = None.
Proof.
  induction s as [|c s IH]; intros H j L; [simpl in L; lia|]. cbn [until] in H.
  destruct (stop_at chunks (c :: s)) as [[i n]|] eqn:E; [discriminate|].
  destruct (until chunks s) as [[[[t' i'] a'] b']|] eqn:U; [discriminate|].
  destruct j as [|j]; [exact E|]. cbn [skipn]. apply IH; [reflexivity|]. simpl in L. lia.
Qed.

Section Until.
Variables (chunks : list bytes) (acc ref : bool).
Hypothesis G : Forall good_chunk chunks.
Hypothesis Hra : ref = true -> acc = true.
Hypothesis Sh : short chunks.

Lemma f_match st win left i : fmem st win left -> (i < length win)%nat ->
  match_at chunks (s_buf st) (s_size st) (s_idx st + Z.of_nat i) =
  Ok (match stop_at chunks (skipn i win) with Some (it, n) => Some (it, Z.of_nat n) | None => None end).
Proof.
  intros (pre & post & K & B & I & Z & _) L. rewrite B, Z, I.
  pose proof (firstn_skipn i win) as FS. assert (FL : length (firstn i win) = i) by (rewrite firstn_length; lia).
  assert (Ls : (length win = i + length (skipn i win))%nat) by (rewrite <- FS at 1; rewrite app_length; lia).
  assert (N : skipn i win <> []) by (intros E; rewrite E in Ls; simpl in Ls; lia).
  replace (pre ++ win ++ post) with ((pre ++ firstn i win) ++ skipn i win ++ post)
    by (rewrite <- app_assoc; f_equal; rewrite app_assoc, FS; reflexivity).
  replace (Z.of_nat (length pre) + Z.of_nat i) with (Z.of_nat (length (pre ++ firstn i win))) by (rewrite app_length; lia).
  replace (Z.of_nat (length pre) + Z.of_nat (length win)) with
    (Z.of_nat (length (pre ++ firstn i win)) + Z.of_nat (length (skipn i win))) by (rewrite app_length; lia).
  apply match_at_ok; assumption.
Qed.

Lemma f_result st win left t it n u : fmem st win left -> win = t ++ u -> (1 <= n <= length u)%nat ->
  exists st', until_result st acc ref (Z.of_nat (length t)) (Z.of_nat n) it =
      Ok (st', if ref && (match t with [] => true | _ => false end) then None else Some (t, it)) /\
      fmem st' (if acc then skipn n u else u) left.
Proof.
  intros M -> Ln. pose proof M as (pre & post & K & B & I & Z & Lb & Ls & L64 & T). rewrite app_length in Z.
  unfold until_result. rewrite B. rewrite <- app_assoc, mem_sub_app by auto. cbn [bind].
  replace (Z.of_nat (length t) =? 0) with (match t with [] => true | _ => false end)
    by (destruct t; [reflexivity|symmetry; apply Z.eqb_neq; simpl length; lia]).
  pose proof (firstn_skipn n u) as FS.
  assert (FL : length (firstn n u) = n) by (rewrite firstn_length; lia).
  destruct ref.
  - rewrite (Hra eq_refl). destruct u as [|c u]; [simpl in Ln; lia|].
    rewrite (app_assoc pre), <- app_comm_cons, wr_app by (rewrite app_length; lia). cbn [bind].
    eexists. split; [reflexivity|].
    destruct n as [|n]; [lia|]. cbn [skipn] in *. cbn [firstn] in *.
    exists (pre ++ t ++ NUL :: firstn n u), post. cbn [set_pos set_buf s_kind s_buf s_bufsize s_idx s_size].
    pose proof (firstn_skipn n u) as FS'. simpl in FL. simpl in Ln.
    assert (length u = (n + length (skipn n u))%nat) by (rewrite <- FS' at 1; rewrite app_length; lia).
    repeat split; [assumption| | | | |lia|lia|].
    + rewrite <- !app_assoc. cbn [app].
      rewrite (app_assoc (firstn n u)), FS'. reflexivity.
    + rewrite !app_length. simpl length. rewrite firstn_length. lia.
    + rewrite !app_length. simpl length in *. rewrite firstn_length. lia.
    + rewrite B in Lb. rewrite <- Lb, !app_length. simpl length. rewrite !app_length. lia.
    + apply (tail_ws_suffix (t ++ c :: firstn n u)). rewrite <- app_assoc. cbn [app].
      rewrite (app_assoc (firstn n u)), FS'. rewrite <- app_assoc in T. exact T.
  - cbn [bind andb]. rewrite set_pos_same by (rewrite B, <- app_assoc; reflexivity). eexists. split; [reflexivity|].
    destruct acc.
    + apply (fmem_advance st (t ++ firstn n u)).
      * rewrite <- app_assoc, FS. exact M.
      * rewrite app_length. lia.
    + apply (fmem_advance st t); [exact M|]. lia.
Qed.

(** the start of a turn: more of the file is read when the buffer is exhausted *)
Lemma f_head f st win left i lag : fmem st win left -> (i + lag <= length win)%nat -> (lag <= 1)%nat ->
  (exists st', until_loop (S f) st chunks acc ref (Z.of_nat i) (Z.of_nat (length win - i - lag)) false = Ok (st', None) /\
     fmem st' win [] /\ left = [] /\ (length win <= i + 1)%nat) \/
  (exists st' win' left' i' lag',
     until_loop (S f) st chunks acc ref (Z.of_nat i) (Z.of_nat (length win - i - lag)) false =
       until_loop (S f) st' chunks acc ref (Z.of_nat i') (Z.of_nat (length win' - i' - 1 - lag')) true /\
     fmem st' win' left' /\ win' ++ left' = win ++ left /\ (i' + 1 + lag' <= length win')%nat /\ (lag' <= 1)%nat /\
     (length win' - i' + 2 * length left' <= length win - i + 2 * length left)%nat /\
     ((i' = i /\ (i < length win)%nat) \/ (i' = i /\ i = O) \/ S i' = i)).
Proof.
  intros M Li Ll. cbn [until_loop].
  destruct (Z.ltb_spec (Z.of_nat (length win - i - lag) - 1) 0) as [L|L].
  - destruct (fmem_prebuffer _ _ _ M) as (st1 & win1 & left1 & more & E & M1 & Gr & Ix).
    assert (Kd : exists l, s_kind st = FD l) by (destruct M as (pre & post & [K|[K _]] & _); eauto).
    destruct Kd as (l & Kd). rewrite Kd, E. cbn [bind].
    pose proof (grown_same _ _ _ _ _ Gr) as S1. destruct Gr as (x & Ex & El & Em & Gr & _).
    destruct more.
    + right. destruct x as [|c x]; [discriminate|].
      assert (I0 : s_idx st1 = 0).
      { destruct Ix as [->|Ix]; [|exact Ix]. exfalso.
        destruct M as (pre & post & _ & _ & I & Z & _). destruct M1 as (pre1 & post1 & _ & _ & I1 & Z1 & _).
        rewrite Ex, app_length in Z1. simpl length in Z1. lia. }
      assert (Sz : s_size st1 = Z.of_nat (length win1)).
      { destruct M1 as (pre1 & post1 & _ & _ & I1 & Z1 & _). lia. }
      assert (Lw1 : (length win1 = length win + S (length x))%nat) by (rewrite Ex, app_length; reflexivity).
      assert (Ll1 : (length left = S (length x) + length left1)%nat) by (rewrite El, app_length; reflexivity).
      destruct i as [|i].
      * exists st1, win1, left1, O, O.
        replace (0 <? Z.of_nat 0) with false by reflexivity. cbn [bind]. rewrite Sz.
        replace (Z.of_nat (length win1) - Z.of_nat 0 - 1) with (Z.of_nat (length win1 - 0 - 1 - 0)) by lia.
        repeat split; auto; lia.
      * exists st1, win1, left1, i, 1%nat.
        replace (0 <? Z.of_nat (S i)) with true by (symmetry; apply Z.ltb_lt; lia). cbn [bind]. rewrite Sz.
        replace (Z.of_nat (length win1) - Z.of_nat (S i) - 1) with (Z.of_nat (length win1 - i - 1 - 1)) by lia.
        replace (Z.of_nat (S i) - 1) with (Z.of_nat i) by lia.
        repeat split; auto; lia.
    + left. destruct x; [|discriminate]. rewrite app_nil_r in Ex. cbn in El. subst win1. specialize (Gr eq_refl).
      rewrite Gr in El. subst left1. exists st1. repeat split; auto. lia.
  - right. exists st, win, left, i, lag. cbn [bind].
    replace (Z.of_nat (length win - i - lag) - 1) with (Z.of_nat (length win - i - 1 - lag)) by lia.
    repeat split; auto; lia.
Qed.
Lemma f_turn f st i r : until_loop (S f) st chunks acc ref i r true =
  (m <- match_at chunks (s_buf st) (s_size st) (s_idx st + i) ;;
   match m with
   | Some (it, length) =>
     if (length <? max_length chunks) && (s_idx st + i + length =? s_size st) then
       '(st, more) <- prebuffer st ;;
       if (more : bool) then until_loop f st chunks acc ref i r true
       else until_result st acc ref i length it
     else until_result st acc ref i length it
   | None => until_loop f st chunks acc ref (i + 1) r false
   end).
Proof. reflexivity. Qed.

Lemma f_never s : until chunks s = None -> forall f st win left i lag, s = win ++ left -> fmem st win left ->
  (i + 1 + lag <= length win)%nat -> (lag <= 1)%nat -> (length win - i + 2 * length left <= f)%nat ->
  exists st' w l, until_loop (S f) st chunks acc ref (Z.of_nat i) (Z.of_nat (length win - i - 1 - lag)) true = Ok (st', None) /\
    s = w ++ l /\ fmem st' w l.
Proof.
  intros U. induction f as [|f IH]; intros st win left i lag E M Li Ll Lf; [lia|].
  rewrite f_turn, (f_match _ _ _ _ M) by lia. cbn [bind].
  assert (N : stop_at chunks (skipn i win) = None).
  { apply (stop_less _ _ left).
    - intros F. apply (f_equal (@length _)) in F. rewrite skipn_length in F. simpl in F. lia.
    - pose proof (until_never chunks s U i) as H. rewrite E, skipn_app in H.
      replace (i - length win)%nat with O in H by lia. apply H. rewrite app_length. lia. }
  rewrite N. replace (Z.of_nat i + 1) with (Z.of_nat (S i)) by lia.
  replace (length win - i - 1 - lag)%nat with (length win - S i - lag)%nat by lia.
  destruct (f_head f st win left (S i) lag M ltac:(lia) Ll) as [(st' & H & M' & -> & _)|(st' & win' & left' & i' & lag' & H & M' & S' & Li' & Ll' & Lf' & _)].
  - rewrite H. exists st', win, []. auto.
  - rewrite H. apply (IH st' win' left' i' lag'); auto; try congruence; lia.
Qed.

Lemma skipn_split {A} (t u l win : list A) : win ++ l = t ++ u -> (length t <= length win)%nat -> exists v, win = t ++ v /\ u = v ++ l.
Proof.
  revert win. induction t as [|x t IH]; intros win E L; [exists win; auto|].
  destruct win as [|y win]; [simpl in L; lia|]. simpl in *. inversion E; subst.
  destruct (IH win H1 ltac:(lia)) as (v & -> & ->). exists v. auto.
Qed.

Lemma f_found s t it a b : until chunks s = Some (t, it, a, b) ->
  forall f st win left i lag, s = win ++ left -> fmem st win left ->
  (i + 1 + lag <= length win)%nat -> (lag <= 1)%nat -> (length win - i + 2 * length left <= f)%nat -> (i <= length t)%nat ->
  (exists st' w l, until_loop (S f) st chunks acc ref (Z.of_nat i) (Z.of_nat (length win - i - 1 - lag)) true =
      Ok (st', if ref && (match t with [] => true | _ => false end) then None else Some (t, it)) /\
    (if acc then b else a) = w ++ l /\ fmem st' w l) \/
  (b = [] /\ exists st', until_loop (S f) st chunks acc ref (Z.of_nat i) (Z.of_nat (length win - i - 1 - lag)) true = Ok (st', None)).
Proof.
  intros U. destruct (until_split _ G _ _ _ _ _ U) as (m & Es & Ea & Hm & St).
  assert (Lb : (length b = 0 -> b = [])%nat) by (destruct b; [reflexivity|discriminate]).
  assert (Lm : (1 <= length m)%nat) by (destruct m; [contradiction|simpl; lia]).
  assert (Ls : (length s = length t + length m + length b)%nat) by (rewrite Es, Ea, !app_length; lia).
  (* the turn at the terminator, when the buffer holds enough of it *)
  assert (Here : forall f st win left r, s = win ++ left -> fmem st win left -> (length t < length win)%nat ->
     (length win - length t + 2 * length left <= f)%nat -> stop_at chunks (skipn (length t) win) <> None ->
     exists st' w l, until_loop (S f) st chunks acc ref (Z.of_nat (length t)) r true =
       Ok (st', if ref && (match t with [] => true | _ => false end) then None else Some (t, it)) /\
     (if acc then b else a) = w ++ l /\ fmem st' w l).
  { induction f as [|f IH]; intros st win left r E M Lt Lf Sn; [lia|].
    rewrite f_turn, (f_match _ _ _ _ M) by lia. cbn [bind].
    destruct (skipn_split t a left win ltac:(congruence) ltac:(lia)) as (u & Eu & Eau).
    assert (Su : skipn (length t) win = u) by (rewrite Eu, skipn_app, skipn_all, Nat.sub_diag; reflexivity). rewrite Su in *.
    assert (Hu : u <> []) by (intros F; rewrite F, app_nil_r in Eu; rewrite Eu in Lt; lia).
    assert (St' := St). rewrite Eau in St'. apply stop_window in St'; [|assumption|assumption|assumption].
    assert (Res : stop_at chunks u = Some (it, length m) ->
       exists st' w l, until_result st acc ref (Z.of_nat (length t)) (Z.of_nat (length m)) it =
         Ok (st', if ref && (match t with [] => true | _ => false end) then None else Some (t, it)) /\
       (if acc then b else a) = w ++ l /\ fmem st' w l).
    { intros Sm. pose proof (stop_len _ _ _ _ G Sm) as Lmu.
      destruct (f_result st win left t it (length m) u M Eu ltac:(lia)) as (st' & R & M'). exists st'.
      eexists _, left. split; [exact R|]. split; [|exact M'].
      destruct acc; [|exact Eau]. rewrite Ea in Eau. symmetry in Eau.
      destruct (skipn_split m b left u Eau ltac:(lia)) as (v & Ev & Eb). rewrite Ev, skipn_app, skipn_all, Nat.sub_diag. exact Eb. }
    pose proof M as (pre & post & _ & _ & I & Z & _).
    assert (Lw : length win = (length t + length u)%nat) by (rewrite Eu, app_length; reflexivity).
    assert (Again : forall (k : stream -> res (stream * option (bytes * BinNums.Z))),
      (forall st' win', fmem st' win' [] -> win' = win -> left = [] -> exists st2 w l, k st' =
         Ok (st2, if ref && (match t with [] => true | _ => false end) then None else Some (t, it)) /\
         (if acc then b else a) = w ++ l /\ fmem st2 w l) ->
      exists st' w l, ('(st1, more) <- prebuffer st ;; if (more : bool) then until_loop (S f) st1 chunks acc ref (Z.of_nat (length t)) r true else k st1) =
         Ok (st', if ref && (match t with [] => true | _ => false end) then None else Some (t, it)) /\
         (if acc then b else a) = w ++ l /\ fmem st' w l).
    { intros k Hk. destruct (fmem_prebuffer _ _ _ M) as (st1 & win1 & left1 & more & Ep & M1 & Gr & _). rewrite Ep. cbn [bind].
      pose proof (grown_same _ _ _ _ _ Gr) as S1. destruct Gr as (x & Ex & El & Em & Gr & _). destruct more.
      - destruct x as [|c x]; [discriminate|].
        assert (length win1 = (length win + S (length x))%nat) by (rewrite Ex, app_length; reflexivity).
        assert (length left = (S (length x) + length left1)%nat) by (rewrite El, app_length; reflexivity).
        apply (IH st1 win1 left1); auto; try congruence; try lia.
        rewrite Ex, skipn_app. replace (length t - length win)%nat with O by lia. rewrite Su. cbn [skipn].
        intros F. apply stop_less in F; [contradiction|exact Hu].
      - specialize (Gr eq_refl). rewrite Gr in El. destruct x; [|discriminate]. cbn in El. subst left1. rewrite app_nil_r in Ex.
        apply (Hk st1 win1); auto. }
    destruct St' as [Sm|(Sm & Lu & Mx & Sx)].
    - rewrite Sm. destruct ((Z.of_nat (length m) <? max_length chunks) && _); [|apply Res, Sm].
      apply (Again (fun st => until_result st acc ref (Z.of_nat (length t)) (Z.of_nat (length m)) it)).
      intros st' win' M' -> El. subst left.
      pose proof (stop_len _ _ _ _ G Sm) as Lmu.
      destruct (f_result st' win [] t it (length m) u M' Eu ltac:(lia)) as (st2 & R & M2). exists st2.
      eexists _, []. split; [exact R|]. split; [|exact M2].
      destruct acc; [|exact Eau]. rewrite Ea in Eau. symmetry in Eau.
      destruct (skipn_split m b [] u Eau ltac:(lia)) as (v & Ev & Eb). rewrite Ev, skipn_app, skipn_all, Nat.sub_diag. exact Eb.
    - destruct (stop_at chunks u) as [[it' n']|] eqn:Su'; [|contradiction]. subst n'.
      replace (Z.of_nat 1 <? max_length chunks) with true by (symmetry; apply Z.ltb_lt; lia). cbn [andb].
      replace (s_idx st + Z.of_nat (length t) + Z.of_nat 1 =? s_size st) with true by (symmetry; apply Z.eqb_eq; lia).
      apply (Again (fun st => until_result st acc ref (Z.of_nat (length t)) (Z.of_nat 1) it')).
      intros st' win' M' -> El. exfalso. rewrite El in E. rewrite app_nil_r in E. rewrite E in Ls. lia. }
  induction f as [|f IH]; intros st win left i lag E M Li Ll Lf Lt; [lia|].
  destruct (Nat.eq_dec i (length t)) as [->|Nt].
  - destruct (stop_at chunks (skipn (length t) win)) as [y|] eqn:Sy.
    { left. apply (Here (S f) st win left); auto; [lia|]. congruence. }
    rewrite f_turn, (f_match _ _ _ _ M) by lia. cbn [bind]. rewrite Sy.
    destruct (skipn_split t a left win ltac:(congruence) ltac:(lia)) as (u & Eu & Eau).
    assert (Su : skipn (length t) win = u) by (rewrite Eu, skipn_app, skipn_all, Nat.sub_diag; reflexivity). rewrite Su in *.
    assert (Lw : length win = (length t + length u)%nat) by (rewrite Eu, app_length; reflexivity).
    assert (Hu : u <> []) by (intros F; rewrite F in Lw; simpl in Lw; lia).
    assert (St' := St). rewrite Eau in St'. apply stop_window in St'; [|assumption|assumption|assumption].
    destruct St' as [Sm|(Sm & Lu & Mx & _)]; [congruence|].
    replace (Z.of_nat (length t) + 1) with (Z.of_nat (S (length t))) by lia.
    replace (length win - length t - 1 - lag)%nat with (length win - S (length t) - 0)%nat by lia.
    destruct (f_head f st win left (S (length t)) 0 M ltac:(lia) ltac:(lia))
      as [(st' & H & M' & El & _)|(st' & win' & left' & i' & lag' & H & M' & S' & Li' & Ll' & Lf' & Hi)].
    + right. rewrite H. split; [|eauto]. apply Lb. rewrite El in E. rewrite app_nil_r in E. rewrite E in Ls. lia.
    + rewrite H. apply (IH st' win' left' i' lag'); auto; try congruence; lia.
  - rewrite f_turn, (f_match _ _ _ _ M) by lia. cbn [bind].
    assert (N : stop_at chunks (skipn i win) = None).
    { apply (stop_less _ _ left).
      - intros F. apply (f_equal (@length _)) in F. rewrite skipn_length in F. simpl in F. lia.
      - pose proof (until_first chunks s _ _ _ _ U i ltac:(lia)) as H. rewrite E, skipn_app in H.
        replace (i - length win)%nat with O in H by lia. exact H. }
    rewrite N. replace (Z.of_nat i + 1) with (Z.of_nat (S i)) by lia.
    replace (length win - i - 1 - lag)%nat with (length win - S i - lag)%nat by lia.
    destruct (f_head f st win left (S i) lag M ltac:(lia) Ll)
      as [(st' & H & M' & El & Le)|(st' & win' & left' & i' & lag' & H & M' & S' & Li' & Ll' & Lf' & Hi)].
    + right. rewrite H. split; [|eauto]. apply Lb. rewrite El in E. rewrite app_nil_r in E. rewrite E in Ls. lia.
    + rewrite H. apply (IH st' win' left' i' lag'); auto; try congruence; lia.
Qed.

Lemma f_until_loop s st win left f : s = win ++ left -> fmem st win left -> (length win + 2 * length left <= f)%nat ->
  match until chunks s with
  | None => exists st' w l, until_loop (S f) st chunks acc ref 0 (s_size st - s_idx st) false = Ok (st', None) /\ s = w ++ l /\ fmem st' w l
  | Some (t, it, a, b) =>
    (exists st' w l, until_loop (S f) st chunks acc ref 0 (s_size st - s_idx st) false =
      Ok (st', if ref && (match t with [] => true | _ => false end) then None else Some (t, it)) /\
      (if acc then b else a) = w ++ l /\ fmem st' w l) \/
    (b = [] /\ exists st', until_loop (S f) st chunks acc ref 0 (s_size st - s_idx st) false = Ok (st', None))
  end.
Proof.
  intros E M Lf.
  assert (Er : s_size st - s_idx st = Z.of_nat (length win - 0 - 0)) by (destruct M as (pre & post & _ & _ & I & Z & _); lia).
  rewrite Er. change 0 with (Z.of_nat 0).
  destruct (f_head f st win left 0 0 M ltac:(lia) ltac:(lia))
      as [(st' & H & M' & El & Le)|(st' & win' & left' & i' & lag' & H & M' & S' & Li' & Ll' & Lf' & Hi)].
  - rewrite H. destruct (until chunks s) as [[[[t it] a] b]|] eqn:U.
    + right. split; [|eauto]. destruct (until_len _ _ _ _ _ _ G U) as [L1 L2]. rewrite El, app_nil_r in E. rewrite E in *.
      destruct b; [reflexivity|]. simpl in *. lia.
    + exists st', win, []. subst left. auto.
  - rewrite H. destruct (until chunks s) as [[[[t it] a] b]|] eqn:U.
    + apply (f_found s t it a b U f st' win' left' i' lag'); auto; try congruence; lia.
    + apply (f_never s U f st' win' left' i' lag'); auto; try congruence; lia.
Qed.
End Until.

Lemma suffix_until chunks s t it a b : Forall good_chunk chunks -> until chunks s = Some (t, it, a, b) -> exists m, s = t ++ a /\ a = m ++ b.
Proof. intros G U. destruct (until_split _ G _ _ _ _ _ U) as (m & E & Ea & _). eauto. Qed.

Lemma f_get_until b0 st s acc chunks : fm b0 st s -> Forall good_chunk chunks -> short chunks ->
  match until chunks s with
  | None => exists st', get_until st acc chunks = Ok (st', None) /\ fm b0 st' s
  | Some (t, it, a, b) => (exists st', get_until st acc chunks = Ok (st', Some (t, it)) /\ fm b0 st' (if acc then b else a)) \/
    (b = [] /\ exists st', get_until st acc chunks = Ok (st', None))
  end.
Proof.
  intros F G Sh. pose proof F as (Hb & win & left & E & M). unfold get_until.
  pose proof (fmem_turns _ _ _ M) as Lt. destruct (turns st) as [|f]; [lia|].
  pose proof (f_until_loop chunks acc false G ltac:(discriminate) Sh s st win left f E M ltac:(lia)) as H.
  destruct (until chunks s) as [[[[t it] a] b]|] eqn:U.
  - destruct H as [(st' & w & l & R & Ew & M')|H]; [left|right; exact H]. exists st'. split; [exact R|].
    destruct (suffix_until _ _ _ _ _ _ G U) as (m & Es & Ea).
    split; [|exists w, l; auto]. intros E'. specialize (Hb E'). rewrite Es in Hb. apply bare_suffix in Hb.
    destruct acc; [|exact Hb]. rewrite Ea in Hb. apply bare_suffix in Hb. exact Hb.
  - destruct H as (st' & w & l & R & Ew & M'). exists st'. split; [exact R|]. split; [exact Hb|eauto].
Qed.
Lemma f_get_until_ref b0 st s chunks : fm b0 st s -> Forall good_chunk chunks -> short chunks ->
  match until chunks s with
  | None => exists st', get_until_ref st true chunks = Ok (st', None) /\ fm b0 st' s
  | Some (t, it, a, b) =>
    (exists st', get_until_ref st true chunks = Ok (st', match t with [] => None | _ => Some (t, it) end) /\ fm b0 st' b) \/
    (b = [] /\ exists st', get_until_ref st true chunks = Ok (st', None))
  end.
Proof.
  intros F G Sh. pose proof F as (Hb & win & left & E & M). unfold get_until_ref.
  pose proof (fmem_turns _ _ _ M) as Lt. destruct (turns st) as [|f]; [lia|].
  pose proof (f_until_loop chunks true true G ltac:(auto) Sh s st win left f E M ltac:(lia)) as H.
  destruct (until chunks s) as [[[[t it] a] b]|] eqn:U.
  - destruct H as [(st' & w & l & R & Ew & M')|H]; [left|right; exact H]. exists st'. split; [rewrite R; destruct t; reflexivity|].
    destruct (suffix_until _ _ _ _ _ _ G U) as (m & Es & Ea).
    split; [|exists w, l; auto]. intros E'. specialize (Hb E'). rewrite Es, Ea in Hb. apply bare_suffix in Hb. apply bare_suffix in Hb. exact Hb.
  - destruct H as (st' & w & l & R & Ew & M'). exists st'. split; [exact R|]. split; [exact Hb|eauto].
Qed.
