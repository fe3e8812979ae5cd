(** Reading a file line by line until its end. *)
From Verif Require Import Prelude StrModel StrSpec StrProofs StreamModel StreamProofs FileProofs2 KnifeModel.
Open Scope Z_scope.
Local Arguments Z.of_nat : simpl never.
Local Arguments Z.to_nat : simpl never.
Local Arguments Z.add : simpl never.
Local Arguments Z.sub : simpl never.
Local Arguments Z.eqb : simpl never.
Local Arguments Z.ltb : simpl never.
Local Arguments Z.leb : simpl never.

(** [win] is the unread part of the buffer and [left] the unread part of the file *)
Definition gmem (st : stream) (win left : bytes) : Prop :=
  exists pre post, left_of (s_kind st) left /\ s_buf st = pre ++ win ++ post /\
    s_idx st = Z.of_nat (length pre) /\ s_size st = Z.of_nat (length pre) + Z.of_nat (length win) /\
    Z.of_nat (length (s_buf st)) = s_bufsize st + 1 /\ s_size st <= s_bufsize st /\ 64 <= s_bufsize st.

Lemma g_read_ok st buf bs win post left : Z.of_nat (length buf) = bs + 1 -> buf = win ++ post ->
  Z.of_nat (length win) < bs -> 64 <= bs ->
  exists st' win' left' more,
    (b <- memcpy_to buf (Z.of_nat (length win)) (firstn (Z.to_nat (bs - Z.of_nat (length win))) left) ;;
    match firstn (Z.to_nat (bs - Z.of_nat (length win))) left with
    | [] => Ok (Stream (FD None) b bs (Z.of_nat (length win)) 0 (s_prev st), false)
    | _ => Ok (Stream (FD (Some (skipn (length (firstn (Z.to_nat (bs - Z.of_nat (length win))) left)) left))) b bs
                 (Z.of_nat (length win) + Z.of_nat (length (firstn (Z.to_nat (bs - Z.of_nat (length win))) left))) 0 (s_prev st), true)
    end) = Ok (st', more) /\ gmem st' win' left' /\ grown win left win' left' more /\ s_idx st' = 0.
Proof.
  intros Lb E Lw L64. set (k := Z.to_nat (bs - Z.of_nat (length win))).
  assert (Lp : (length post = k + 1)%nat) by (rewrite E, app_length in Lb; lia).
  assert (Lf : (length (firstn k left) <= k)%nat) by (rewrite firstn_length; lia).
  pose proof (firstn_skipn k left) as FS.
  assert (Full : skipn k left = [] \/ length (firstn k left) = k).
  { rewrite firstn_length. destruct (Nat.le_gt_cases (length left) k); [left; apply skipn_all2; lia|right; lia]. }
  assert (SL : skipn (length (firstn k left)) left = skipn k left).
  { destruct Full as [F|F]; [|rewrite F; reflexivity]. rewrite F in *. rewrite app_nil_r in FS. rewrite FS at 1.
    apply skipn_all. }
  rewrite SL. clear SL. set (x := firstn k left) in *. set (l' := skipn k left) in *. clearbody x l'.
  destruct (split_len (length x) post ltac:(lia)) as (m & p & Ep & Em). subst post.
  rewrite E, (memcpy_append win m p x) by lia. cbn [bind].
  assert (Lbuf : Z.of_nat (length (win ++ x ++ p)) = bs + 1).
  { rewrite E in Lb. rewrite !app_length in *. lia. }
  destruct x as [|c x].
  - eexists _, win, [], false. split; [reflexivity|].
    assert (l' = []) by (destruct Full as [F|F]; [exact F|cbn in F; lia]). subst l'. cbn in FS. subst left.
    split; [|split; [exists []; rewrite app_nil_r; auto 10|reflexivity]].
    exists [], p. cbn [s_kind s_buf s_bufsize s_size s_idx app length]. cbn [app] in Lbuf.
    repeat split; try assumption; try lia. right. auto.
  - eexists _, (win ++ c :: x), l', true. split; [reflexivity|].
    split; [|split; [|reflexivity]].
    + exists [], p. cbn [s_kind s_buf s_bufsize s_size s_idx app length].
      rewrite <- app_assoc. rewrite app_length.
      repeat split; try assumption; try (simpl length in *; lia). left. reflexivity.
    + exists (c :: x). repeat split; auto; try discriminate.
      destruct Full as [F|F]; [left; exact F|right]. rewrite app_length, F. unfold k. lia.
Qed.

Lemma gmem_prebuffer st win left : gmem st win left ->
  exists st' win' left' more, prebuffer st = Ok (st', more) /\ gmem st' win' left' /\ grown win left win' left' more /\
    (st' = st \/ s_idx st' = 0).
Proof.
  intros M. pose proof M as (pre & post & K & B & I & Z & Lb & Ls & L64). unfold prebuffer.
  destruct K as [K|[K ->]]; rewrite K.
  2: { exists st, win, [], false. split; [reflexivity|]. split; [exact M|]. split; [|auto].
       exists []. rewrite app_nil_r. auto 10. }
  assert (R : forall r : res (stream * bool), (exists st' win' left' more, r = Ok (st', more) /\ gmem st' win' left' /\
     grown win left win' left' more /\ s_idx st' = 0) -> exists st' win' left' more, r = Ok (st', more) /\ gmem st' win' left' /\
     grown win left win' left' more /\ (st' = st \/ s_idx st' = 0)).
  { intros r (a & b & c & d & H1 & H2 & H3 & H4). exists a, b, c, d. auto. }
  apply R. clear R. cbv zeta.
  destruct (Z.ltb_spec 0 (s_idx st)) as [L1|L1]; [destruct (Z.ltb_spec 0 (s_size st - s_idx st)) as [L2|L2]|]; cbn [andb].
  - rewrite B, mem_sub_app by lia. cbn [bind].
    assert (E : memcpy_to (pre ++ win ++ post) 0 win = Ok (win ++ skipn (length win) (pre ++ win ++ post))).
    { unfold memcpy_to. change (0 <? 0) with false. cbn [orb].
      destruct (Z.ltb_spec (Z.of_nat (length (pre ++ win ++ post))) (0 + Z.of_nat (length win))) as [F|F]; [rewrite !app_length in F; lia|].
      reflexivity. }
    rewrite E. cbn [bind]. clear E. replace (s_size st - s_idx st) with (Z.of_nat (length win)) by lia.
    apply (g_read_ok st _ (s_bufsize st) win (skipn (length win) (pre ++ win ++ post)) left); auto; [|lia].
    rewrite app_length, skipn_length, <- B. rewrite B, !app_length in Lb |- *. lia.
  - assert (win = []) by (destruct win; [reflexivity|simpl length in Z; lia]). subst win. simpl length in Z. rewrite Z.add_0_r in Z.
    replace (s_idx st =? 0) with false by (symmetry; apply Z.eqb_neq; lia). rewrite andb_false_r. cbn [bind].
    replace (s_size st =? s_idx st) with true by (symmetry; apply Z.eqb_eq; lia).
    apply (g_read_ok st (s_buf st) (s_bufsize st) [] (s_buf st) left); auto. cbn. lia.
  - assert (pre = []) by (destruct pre; [reflexivity|simpl length in I; lia]). subst pre. cbn [length app] in *.
    change (Z.of_nat 0) with 0 in *. rewrite Z.add_0_l in Z. rewrite I, Z. change (0 =? 0) with true. rewrite andb_true_r.
    destruct (Z.eqb_spec (Z.of_nat (length win)) (s_bufsize st)) as [E|E]; cbn [bind].
    + apply (g_read_ok st _ (s_bufsize st + s_bufsize st) win (post ++ repeat NUL (Z.to_nat (s_bufsize st))) left); auto; try lia.
      * rewrite app_length, repeat_length. lia.
      * rewrite B, app_assoc. reflexivity.
    + replace (if Z.of_nat (length win) =? 0 then 0 else Z.of_nat (length win)) with (Z.of_nat (length win))
        by (destruct (Z.eqb_spec (Z.of_nat (length win)) 0); congruence).
      apply (g_read_ok st _ (s_bufsize st) win post left); auto. lia.
Qed.
Lemma gmem_advance st a win left i p : gmem st (a ++ win) left -> i = s_idx st + Z.of_nat (length a) ->
  gmem (set_pos st i p) win left.
Proof.
  intros (pre & post & K & B & I & Z & Lb & Ls & L64) ->. exists (pre ++ a), post.
  cbn [set_pos s_kind s_buf s_bufsize s_size s_idx]. rewrite B, I, Z in *. rewrite !app_length in *.
  rewrite <- !app_assoc in *. repeat split; try assumption; try lia.
Qed.
Lemma gmem_turns st win left : gmem st win left -> (length win + 2 * length left + 3 <= turns st)%nat.
Proof.
  intros (pre & post & K & B & I & Z & Lb & Ls & L64). unfold turns.
  destruct K as [K|[K ->]]; rewrite K; cbn [length]; lia.
Qed.
Lemma stream_file_g content : exists st win left, stream_file content = Ok st /\ gmem st win left /\ content = win ++ left /\ (Z.of_nat (length content) <= buffer_size -> left = []) /\
  (buffer_size < Z.of_nat (length content) -> Z.of_nat (length win) = buffer_size).
Proof.
  unfold stream_file. set (st0 := Stream _ _ _ _ _ _).
  assert (M : gmem st0 [] content).
  { exists [], (repeat NUL (Z.to_nat buffer_size + 1)). cbn [st0 s_kind s_buf s_bufsize s_size s_idx app].
    rewrite repeat_length. unfold buffer_size. repeat split; try lia. left. reflexivity. }
  unfold prebuffer. cbn [st0 s_kind s_size s_idx s_bufsize s_buf s_prev]. cbv zeta. change (0 <? 0) with false. cbn [andb].
  change (0 =? buffer_size) with false. cbn [andb bind]. change (0 =? 0) with true. cbv iota.
  destruct (g_read_ok st0 (repeat NUL (Z.to_nat buffer_size + 1)) buffer_size [] (repeat NUL (Z.to_nat buffer_size + 1)) content) as (st & win & left & more & E & M' & G & _).
  - rewrite repeat_length. unfold buffer_size. lia.
  - reflexivity.
  - reflexivity.
  - unfold buffer_size. lia.
  - change (Z.of_nat (@length ascii [])) with 0 in E. change (s_prev st0) with 0 in E.
    set (k := Z.to_nat (buffer_size - 0)) in *. assert (Ek : Z.of_nat k = buffer_size) by (unfold k, buffer_size; lia). assert (0 < buffer_size) by reflexivity. clearbody k.
    destruct (memcpy_to _ 0 (firstn k content)) as [b| |] eqn:Eb; try discriminate. cbn [bind] in *.
    pose proof (firstn_skipn k content) as FS. pose proof (firstn_length k content) as FL.
    exists st, win, left. rewrite E. cbn [bind]. split; [reflexivity|]. split; [exact M'|].
    destruct G as (x & -> & -> & Em & Gn & _). cbn [app]. split; [reflexivity|].
    assert (Ew : Z.of_nat (length x) = s_size st).
    { destruct M' as (pre & post & _ & _ & I & Z & _). cbn [app] in Z.
      destruct (firstn k (x ++ left)) eqn:Ef; injection E as E _; subst st; cbn [s_size s_idx] in *; lia. }
    assert (Sz : s_size st = Z.of_nat (length (firstn k (x ++ left)))).
    { destruct (firstn k (x ++ left)) eqn:Ef; injection E as E _; subst st; reflexivity. }
    rewrite Sz, FL, app_length in Ew. split.
    + rewrite app_length. intros L. destruct left; [reflexivity|]. exfalso. simpl length in *. lia.
    + rewrite app_length. intros L. lia.
Qed.

(** ** one line *)
Definition no_lf (s : bytes) : Prop := ~ In LF s.
Lemma match_lf st win left i : gmem st win left -> (i < length win)%nat ->
  exists c, nth_error win i = Some c /\
  match_at [[LF]] (s_buf st) (s_size st) (s_idx st + Z.of_nat i) = Ok (if Ascii.eqb LF c then Some (0, 1) else None).
Proof.
  intros (pre & post & K & B & I & Z & _) L. destruct (nth_error win i) as [c|] eqn:E.
  2: { apply nth_error_None in E. lia. }
  exists c. split; [reflexivity|]. unfold match_at. cbn [existsb]. change (ws_chunk [LF]) with false. cbn [orb bind match_chunks].
  change (chunk_len [LF]) with 1. change (0 <? 1) with true.
  replace (s_idx st + Z.of_nat i + 1 <=? s_size st) with true by (symmetry; apply Z.leb_le; lia). cbn [andb].
  assert (R : rd (s_buf st) (s_idx st + Z.of_nat i) = Ok c).
  { unfold rd. destruct (Z.ltb_spec (s_idx st + Z.of_nat i) 0); [lia|]. cbn [orb].
    replace (Z.to_nat (s_idx st + Z.of_nat i)) with (length pre + i)%nat by lia.
    rewrite B, nth_error_app2 by lia. replace (length pre + i - length pre)%nat with i by lia.
    rewrite nth_error_app1 by lia. rewrite E. reflexivity. }
  rewrite R. cbn [bind]. change (rd (cs [LF]) 0) with (Ok LF). cbn [bind]. destruct (Ascii.eqb LF c); [|reflexivity]. reflexivity.
Qed.
Lemma result_ok st t u left n it : gmem st (t ++ u) left -> exists st',
  until_result st true false (Z.of_nat (length t)) n it = Ok (st', Some (t, it)) /\
  (n = 1 -> forall c v, u = c :: v -> gmem st' v left).
Proof.
  intros M. pose proof M as (pre & post & K & B & I & Z & _). unfold until_result.
  rewrite B. rewrite <- app_assoc, mem_sub_app by lia. cbn [bind andb]. eexists. split; [reflexivity|].
  intros -> c v ->. rewrite <- app_assoc in B. rewrite <- B.
  replace (set_buf st (s_buf st)) with st by (destruct st; reflexivity).
  apply (gmem_advance st (t ++ [c])); [rewrite <- app_assoc; exact M|]. rewrite app_length. simpl length. lia.
Qed.

(** the text up to the first line end, and what comes after it *)
Fixpoint cut (s : bytes) : option (bytes * bytes) :=
  match s with
  | [] => None
  | c :: r => if Ascii.eqb LF c then Some ([], r) else match cut r with Some (t, u) => Some (c :: t, u) | None => None end
  end.
Lemma cut_app t u : no_lf t -> cut (t ++ LF :: u) = Some (t, u).
Proof.
  induction t as [|c t IH]; intros N; [reflexivity|]. cbn [app cut].
  destruct (Ascii.eqb_spec LF c) as [E|E]; [destruct N; left; auto|]. rewrite IH; [reflexivity|]. intros H. apply N. right. exact H.
Qed.
Lemma cut_none s : no_lf s -> cut s = None.
Proof.
  induction s as [|c s IH]; intros N; [reflexivity|]. cbn [cut].
  destruct (Ascii.eqb_spec LF c) as [E|E]; [destruct N; left; auto|]. rewrite IH; [reflexivity|]. intros H. apply N. right. exact H.
Qed.
Lemma cut_some s t u : cut s = Some (t, u) -> s = t ++ LF :: u /\ no_lf t.
Proof.
  revert t. induction s as [|c s IH]; intros t; cbn [cut]; [discriminate|].
  destruct (Ascii.eqb_spec LF c) as [E|E].
  - intros [= <- <-]. subst c. split; [reflexivity|]. intros [].
  - destruct (cut s) as [[t' u']|]; [|discriminate]. intros [= <- <-]. destruct (IH t' eq_refl) as [-> N]. split; [reflexivity|].
    intros [H|H]; [congruence|apply N, H].
Qed.
Lemma cut_no s : cut s = None -> no_lf s.
Proof.
  induction s as [|c s IH]; cbn [cut]; [intros _ []|]. destruct (Ascii.eqb_spec LF c) as [E|E]; [discriminate|].
  destruct (cut s) as [[t u]|]; [discriminate|]. intros _ [H|H]; [congruence|apply IH; auto].
Qed.

(** what a call returns: [e] is what is left, maybe without its last byte *)
Definition line_of (s e : bytes) (r : res (stream * option (bytes * Z))) : Prop :=
  match cut e with
  | Some (t, _) => exists st' win' left', r = Ok (st', Some (t, 0)) /\ s = t ++ LF :: win' ++ left' /\ gmem st' win' left'
  | None => exists st', r = Ok (st', Some (e, -2))
  end.
Definition lag_of (lag : nat) (win left : bytes) (b : bool) : Prop :=
  (b = true -> win ++ left <> []) /\
  (lag = 1%nat -> (2 <= length win)%nat -> b = true) /\ (lag = 0%nat -> left = [] -> b = false) /\
  (lag = 0%nat -> win <> [] -> left <> [] -> no_lf win -> b = true).
Definition eff (b : bool) (s : bytes) : bytes := if b then removelast s else s.

Lemma zero_turn f st i r last : zero_loop (S f) st [[LF]] true i r last true =
  (m <- match_at [[LF]] (s_buf st) (s_size st) (s_idx st + i) ;;
   match m with
   | Some (it, length) =>
     if (length <? 1) && (s_idx st + i + length =? s_size st) then
       '(st, more) <- prebuffer st ;;
       if (more : bool) then zero_loop f st [[LF]] true i r length true
       else until_result st true false i length it
     else until_result st true false i length it
   | None => zero_loop f st [[LF]] true (i + 1) r 1 false
   end).
Proof. reflexivity. Qed.

Section Line.
Variable f : nat.
Hypothesis IH : forall st win left i lag last, gmem st win left -> (i + lag <= length win)%nat -> (lag <= 1)%nat -> no_lf (firstn i win) ->
  (length win - i + 2 * length left < f)%nat ->
  exists b, line_of (win ++ left) (eff b (win ++ left)) (zero_loop f st [[LF]] true (Z.of_nat i) (Z.of_nat (length win - i - lag)) last false) /\
    lag_of lag win left b.
Lemma turn_ok st win left i lag last : gmem st win left -> (i + 1 + lag <= length win)%nat -> (lag <= 1)%nat -> no_lf (firstn i win) ->
  (length win - i + 2 * length left < S f)%nat ->
  exists b, line_of (win ++ left) (eff b (win ++ left)) (zero_loop (S f) st [[LF]] true (Z.of_nat i) (Z.of_nat (length win - i - 1 - lag)) last true) /\
    lag_of lag win left b.
Proof.
  intros M Li Ll N Lf. rewrite zero_turn. destruct (match_lf _ _ _ i M ltac:(lia)) as (c & Ec & ->). cbn [bind].
  apply nth_error_split in Ec. destruct Ec as (t & u & E & Lt).
  assert (Ft : firstn i win = t) by (rewrite E, firstn_app, <- Lt, firstn_all, Nat.sub_diag; cbn [firstn]; apply app_nil_r).
  rewrite Ft in N. destruct (Ascii.eqb_spec LF c) as [<-|Nc].
  - change (1 <? 1) with false. cbn [andb]. rewrite E in M. destruct (result_ok st t (LF :: u) left 1 0 M) as (st' & R & G).
    rewrite <- Lt, R. exists (lag =? 1)%nat. split.
    + unfold line_of. assert (Cu : exists v, cut (eff (lag =? 1)%nat (win ++ left)) = Some (t, v)).
      { subst win. rewrite <- app_assoc. cbn [app]. destruct (Nat.eqb_spec lag 1) as [El|El]; cbn [eff]; [|rewrite cut_app by exact N; eauto].
        rewrite app_length in Li. simpl length in Li. destruct u as [|x u]; [simpl length in Li; lia|].
        rewrite removelast_app by discriminate. change (removelast (LF :: (x :: u) ++ left)) with (LF :: removelast ((x :: u) ++ left)).
        rewrite cut_app by exact N. eauto. }
      destruct Cu as (v & ->). exists st', u, left. split; [reflexivity|]. split; [subst win; rewrite <- app_assoc; reflexivity|]. eapply G; reflexivity.
    + split; [intros _; subst win; destruct t; discriminate|]. split; [intros ->; reflexivity|]. split; [intros -> _; reflexivity|].
      intros _ _ _ F. destruct F. subst win. apply in_or_app. right. left. reflexivity.
  - replace (Z.of_nat i + 1) with (Z.of_nat (S i)) by lia. replace (length win - i - 1 - lag)%nat with (length win - S i - lag)%nat by lia.
    apply IH; auto; try lia.
    assert (F : firstn (S i) win = t ++ [c]).
    { rewrite E. replace (S i) with (length (t ++ [c])) by (rewrite app_length; simpl; lia).
      replace (t ++ c :: u) with ((t ++ [c]) ++ u) by (rewrite <- app_assoc; reflexivity).
      rewrite firstn_app, firstn_all, Nat.sub_diag. apply app_nil_r. }
    rewrite F. intros H. apply in_app_iff in H. destruct H as [H|[H|[]]]; [apply N, H|congruence].
Qed.
End Line.

Lemma line_loop f : forall st win left i lag last, gmem st win left -> (i + lag <= length win)%nat -> (lag <= 1)%nat -> no_lf (firstn i win) ->
  (length win - i + 2 * length left < f)%nat ->
  exists b, line_of (win ++ left) (eff b (win ++ left)) (zero_loop f st [[LF]] true (Z.of_nat i) (Z.of_nat (length win - i - lag)) last false) /\
    lag_of lag win left b.
Proof.
  induction f as [|f IH]; intros st win left i lag last M Li Ll N Lf; [lia|].
  pose proof (turn_ok f IH) as T. clear IH.
  assert (Go : forall st r i last, zero_loop (S f) st [[LF]] true i r last false =
    ('(st, go, index, remains) <-
       (let remains := r - 1 in
         if remains <? 0 then
           match s_kind st with
           | MEM => Ok (st, false, i, remains)
           | _ =>
             '(st, more) <- prebuffer st ;;
             if (more : bool) then Ok (st, true, if 0 <? i then i - 1 else i, s_size st - i - 1)
             else Ok (st, false, i, remains)
           end
         else Ok (st, true, i, remains)) ;;
     if (go : bool) then zero_loop (S f) st [[LF]] true index remains last true
     else until_result st true false index last (-2))) by reflexivity.
  rewrite Go. clear Go. cbv zeta.
  destruct (Z.ltb_spec (Z.of_nat (length win - i - lag) - 1) 0) as [L|L].
  - assert (El : (i + lag = length win)%nat) by lia.
    destruct (gmem_prebuffer _ _ _ M) as (st1 & win1 & left1 & more & E & M1 & Gr & Ix).
    assert (Kd : exists l, s_kind st = FD l) by (destruct M as (pre & post & [K|[K _]] & _); eauto).
    destruct Kd as (l & Kd). rewrite Kd, E. cbn [bind].
    pose proof (grown_same _ _ _ _ _ Gr) as S1. destruct Gr as (x & Ex & Exl & Em & Gr & _).
    destruct more; cbn [bind].
    + destruct x as [|c x]; [discriminate|].
      assert (I0 : s_idx st1 = 0).
      { destruct Ix as [->|Ix]; [|exact Ix]. exfalso.
        destruct M as (pre & post & _ & _ & I & Z & _). destruct M1 as (pre1 & post1 & _ & _ & I1 & Z1 & _).
        rewrite Ex, app_length in Z1. simpl length in Z1. lia. }
      assert (Sz : s_size st1 = Z.of_nat (length win1)).
      { destruct M1 as (pre1 & post1 & _ & _ & I1 & Z1 & _). lia. }
      assert (Lw1 : (length win1 = length win + S (length x))%nat) by (rewrite Ex, app_length; reflexivity).
      assert (Ll1 : (length left = S (length x) + length left1)%nat) by (rewrite Exl, app_length; reflexivity).
      rewrite Sz, <- S1. destruct (Z.ltb_spec 0 (Z.of_nat i)) as [Li0|Li0].
      * replace (Z.of_nat i - 1) with (Z.of_nat (i - 1)) by lia.
        replace (Z.of_nat (length win1) - Z.of_nat i - 1) with (Z.of_nat (length win1 - (i - 1) - 1 - 1)) by lia.
        destruct (T st1 win1 left1 (i - 1)%nat 1%nat last) as (b & H & Q1 & Q2 & Q3 & Q4); auto; try lia.
        { intros F. apply N. rewrite Ex, firstn_app in F. replace (i - 1 - length win)%nat with O in F by lia. rewrite app_nil_r in F.
          replace i with (i - 1 + 1)%nat by lia. rewrite <- (firstn_skipn (i - 1)) in F. rewrite firstn_firstn in F.
          apply in_app_iff in F. destruct F as [F|F].
          - rewrite Nat.min_id in F. clear - F. revert F. generalize (i - 1)%nat as k. intros k. revert win.
            induction k as [|k IHk]; intros [|y w] H; cbn in *; try contradiction. destruct H as [H|H]; [left; exact H|right; apply IHk, H].
          - exfalso. rewrite skipn_all2 in F; [destruct F|]. rewrite firstn_length. lia. }
        exists b. split; [exact H|]. split; [rewrite <- S1; exact Q1|]. split; [intros _ _; apply Q2; auto; lia|].
        split; [intros _ F; rewrite F in Ll1; simpl in Ll1; lia|]. intros _ _ _ _. apply Q2; auto. lia.
      * assert (i = 0%nat) by lia. subst i. change (Z.of_nat 0) with 0.
        replace (Z.of_nat (length win1) - 0 - 1) with (Z.of_nat (length win1 - 0 - 1 - 0)) by lia. change 0 with (Z.of_nat 0).
        destruct (T st1 win1 left1 0%nat 0%nat last) as (b & H & Q1 & Q2 & Q3 & Q4); auto; try lia.
        exists b. split; [exact H|]. split; [rewrite <- S1; exact Q1|]. split; [intros; lia|].
        split; [intros _ F; rewrite F in Ll1; simpl in Ll1; lia|]. intros -> F. destruct win; [congruence|simpl in El; lia].
    + specialize (Gr eq_refl). destruct x; [|discriminate]. cbn [app] in Exl. subst left. subst left1. rewrite !app_nil_r in *. subst win1.
      pose proof (firstn_skipn i win) as FS. assert (Lfi : length (firstn i win) = i) by (rewrite firstn_length; lia).
      assert (M2 := M1). rewrite <- FS in M2. destruct (result_ok st1 (firstn i win) (skipn i win) [] last (-2) M2) as (st' & R & _).
      rewrite Lfi in R. rewrite R. exists (lag =? 1)%nat.
      assert (Ee : eff (lag =? 1)%nat win = firstn i win).
      { destruct (Nat.eqb_spec lag 1) as [E1|E1]; cbn [eff].
        - rewrite removelast_firstn_len. replace (pred (length win)) with i by lia. reflexivity.
        - replace i with (length win) by lia. symmetry. apply firstn_all. }
      rewrite Ee. split; [unfold line_of; rewrite cut_none by exact N; eauto|].
      split; [destruct (Nat.eqb_spec lag 1) as [E1|E1]; [|discriminate]; intros _ F; rewrite app_nil_r in F; rewrite F in El; simpl in El; lia|].
      split; [intros ->; reflexivity|]. split; [intros -> _; reflexivity|]. congruence.
  - cbn [bind]. replace (Z.of_nat (length win - i - lag) - 1) with (Z.of_nat (length win - i - 1 - lag)) by lia.
    apply T; auto; lia.
Qed.
Lemma get_line st win left : gmem st win left ->
  exists b, line_of (win ++ left) (eff b (win ++ left)) (get_until_zero st true [[LF]]) /\ lag_of 0 win left b.
Proof.
  intros M. unfold get_until_zero. pose proof (gmem_turns _ _ _ M) as Lt.
  replace (s_size st - s_idx st) with (Z.of_nat (length win - 0 - 0)) by (destruct M as (pre & post & _ & _ & I & Z & _); lia).
  change 0 with (Z.of_nat 0). apply line_loop; auto; try lia. intros [].
Qed.
(** a line that ends within the buffer *)
Lemma get_line_near st win left t u : gmem st win left -> win = t ++ LF :: u -> no_lf t ->
  exists st', get_until_zero st true [[LF]] = Ok (st', Some (t, 0)) /\ gmem st' u left.
Proof.
  intros M E N. unfold get_until_zero. pose proof (gmem_turns _ _ _ M) as Lt.
  replace (s_size st - s_idx st) with (Z.of_nat (length win - 0)) by (destruct M as (pre & post & _ & _ & I & Z & _); lia).
  assert (H : forall k i f last, (length t - i = k)%nat -> (i <= length t)%nat -> (k < f)%nat -> exists st',
    zero_loop f st [[LF]] true (Z.of_nat i) (Z.of_nat (length win - i)) last false = Ok (st', Some (t, 0)) /\ gmem st' u left).
  { assert (Lw : length win = (length t + S (length u))%nat) by (rewrite E, app_length; reflexivity).
    induction k as [|k IHk]; intros i f last Ek Li Lf; (destruct f as [|f]; [lia|]).
    - assert (i = length t) by lia. subst i.
      change (exists st', ('(st, go, index, remains) <- (let remains := Z.of_nat (length win - length t) - 1 in
         if remains <? 0 then match s_kind st with MEM => Ok (st, false, Z.of_nat (length t), remains) | _ =>
             '(st, more) <- prebuffer st ;; if (more : bool) then Ok (st, true, if 0 <? Z.of_nat (length t) then Z.of_nat (length t) - 1 else Z.of_nat (length t), s_size st - Z.of_nat (length t) - 1)
             else Ok (st, false, Z.of_nat (length t), remains) end else Ok (st, true, Z.of_nat (length t), remains)) ;;
        if (go : bool) then zero_loop (S f) st [[LF]] true index remains last true else until_result st true false index last (-2)) = Ok (st', Some (t, 0)) /\ gmem st' u left).
      cbv zeta. destruct (Z.ltb_spec (Z.of_nat (length win - length t) - 1) 0) as [L|L]; [lia|]. cbn [bind]. rewrite zero_turn.
      destruct (match_lf _ _ _ (length t) M ltac:(lia)) as (c & Ec & ->). rewrite E, nth_error_app2, Nat.sub_diag in Ec by lia. injection Ec as <-.
      cbn [bind]. rewrite Ascii.eqb_refl. change (1 <? 1) with false. cbn [andb]. rewrite E in M.
      destruct (result_ok st t (LF :: u) left 1 0 M) as (st' & R & G). exists st'. split; [exact R|]. eapply G; reflexivity.
    - change (exists st', ('(st, go, index, remains) <- (let remains := Z.of_nat (length win - i) - 1 in
         if remains <? 0 then match s_kind st with MEM => Ok (st, false, Z.of_nat i, remains) | _ =>
             '(st, more) <- prebuffer st ;; if (more : bool) then Ok (st, true, if 0 <? Z.of_nat i then Z.of_nat i - 1 else Z.of_nat i, s_size st - Z.of_nat i - 1)
             else Ok (st, false, Z.of_nat i, remains) end else Ok (st, true, Z.of_nat i, remains)) ;;
        if (go : bool) then zero_loop (S f) st [[LF]] true index remains last true else until_result st true false index last (-2)) = Ok (st', Some (t, 0)) /\ gmem st' u left).
      cbv zeta. destruct (Z.ltb_spec (Z.of_nat (length win - i) - 1) 0) as [L|L]; [lia|]. cbn [bind]. rewrite zero_turn.
      destruct (match_lf _ _ _ i M ltac:(lia)) as (c & Ec & ->). rewrite E, nth_error_app1 in Ec by lia.
      cbn [bind]. destruct (Ascii.eqb_spec LF c) as [F|F]; [destruct N; rewrite F; eapply nth_error_In, Ec|].
      replace (Z.of_nat i + 1) with (Z.of_nat (S i)) by lia. replace (Z.of_nat (length win - i) - 1) with (Z.of_nat (length win - S i)) by lia.
      apply IHk; lia. }
  change 0 with (Z.of_nat 0). apply (H (length t)); try lia. rewrite E, app_length in Lt. simpl in Lt. lia.
Qed.
