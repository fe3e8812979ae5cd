(** Memory streams: the stream functions as functions of the text still to be read. *)
From Verif Require Import Prelude StrModel StrSpec StrProofs StreamModel.
Open Scope Z_scope.
Local Arguments Z.of_nat : simpl never.
Local Arguments Z.to_nat : simpl never.
Local Arguments Z.add : simpl never.
Local Arguments Z.sub : simpl never.
Local Arguments Z.eqb : simpl never.
Local Arguments Z.ltb : simpl never.
Local Arguments Z.leb : simpl never.

(** white space at the end of a text: a white space byte followed by a byte that is
    neither white space nor [<] is not among the last bytes *)
Definition calm (s : bytes) : Prop :=
  forall u w c v, s = u ++ w :: c :: v -> is_ws w = true -> is_ws c = false -> c <> "<"%char -> (8 <= length v)%nat.
Lemma calm_suffix a s : calm (a ++ s) -> calm s.
Proof. intros H u w c v E. apply (H (a ++ u) w c v). rewrite E, <- app_assoc. reflexivity. Qed.

(** What is asked of the text when the stream is a file that has been read completely
    ([calmly]), and when the content of an element goes on ([pos]); and whether the stream
    can be one in memory *)
Class ctx := Ctx {
  memok : Prop;
  calmly : bytes -> Prop;
  pos : bytes -> Prop;
  calmly_suffix : forall a s, calmly (a ++ s) -> calmly s;
  pos_tag : forall a s, memok \/ calmly (a ++ ">"%char :: s) -> pos s;
  pos_solid : forall c s, is_ws c = false -> pos (c :: s);
  pos_nil : pos [];
  pos_use : forall u w c v, calmly (u ++ w :: c :: v) -> pos (u ++ w :: c :: v) -> forallb is_ws (u ++ [w]) = true -> is_ws c = false -> c <> "<"%char -> (8 <= length v)%nat
}.
Global Instance any : ctx.
Proof.
  refine (Ctx True calm (fun _ => True) calm_suffix _ _ _ _); auto.
  intros u w c v C _ W. rewrite forallb_app in W. apply andb_true_iff in W. destruct W as [_ W]. cbn in W. rewrite andb_true_r in W. apply (C u w c v eq_refl W).
Defined.

Section Ctx.
Context {cx : ctx}.
(** [s] is what remains to be read of the stream [st], which is a memory stream or a
    file that has been read completely *)
Definition whole (k : kind) (s : bytes) : Prop :=
  memok /\ k = MEM \/ ((k = FD None \/ k = FD (Some [])) /\ calmly s).
Definition mem (st : stream) (s : bytes) : Prop :=
  exists pre post, whole (s_kind st) s /\ s_buf st = pre ++ s ++ post /\ post <> [] /\
    s_idx st = Z.of_nat (length pre) /\ s_size st = Z.of_nat (length pre) + Z.of_nat (length s).

Lemma whole_suffix k a s : whole k (a ++ s) -> whole k s.
Proof. intros [H|[H C]]; [left; exact H|right; split; [exact H|eapply calmly_suffix, C]]. Qed.
Lemma whole_pos k a s : whole k (a ++ ">"%char :: s) -> pos s.
Proof. intros [[H _]|[_ C]]; apply (pos_tag a); auto. Qed.
Lemma mem_pos st a s : mem st (a ++ ">"%char :: s) -> pos s.
Proof. intros (pre & post & W & _). exact (whole_pos _ _ _ W). Qed.
Lemma mem_read content bs : calmly content -> 0 < bs -> (length content <= Z.to_nat bs)%nat ->
  exists st post, prebuffer (Stream (FD (Some content)) (repeat NUL (Z.to_nat bs + 1)) bs 0 0 0) =
      Ok (st, match content with [] => false | _ => true end) /\
    mem st content /\ s_idx st = 0 /\ s_buf st = content ++ NUL :: post.
Proof.
  intros C Lb L. unfold prebuffer. cbn [s_kind s_buf s_bufsize s_size s_idx s_prev].
  change (0 <? 0) with false. cbn [andb].
  replace (0 =? bs) with false by (symmetry; apply Z.eqb_neq; lia). cbn [andb bind]. change (0 =? 0) with true. cbv iota.
  rewrite Z.sub_0_r, firstn_all2 by assumption.
  assert (Lz : length (repeat NUL (Z.to_nat bs + 1)) = (Z.to_nat bs + 1)%nat) by apply repeat_length.
  assert (Sz : forall x, In x (repeat NUL (Z.to_nat bs + 1)) -> x = NUL) by (intro x; apply repeat_spec).
  set (zs := repeat NUL (Z.to_nat bs + 1)) in *. clearbody zs.
  assert (Em : exists post, memcpy_to zs 0 content = Ok (content ++ NUL :: post)).
  { unfold memcpy_to. change (0 <? 0) with false. cbn [orb].
    destruct (Z.ltb_spec (Z.of_nat (length zs)) (0 + Z.of_nat (length content))); [lia|].
    change (Z.to_nat 0) with O. cbn [firstn app Nat.add].
    assert (Lk : length (skipn (length content) zs) = S (Z.to_nat bs - length content)) by (rewrite skipn_length; lia).
    destruct (skipn (length content) zs) as [|c r] eqn:Es; [simpl in Lk; lia|]. exists r.
    replace c with NUL; [reflexivity|]. symmetry. apply Sz.
    rewrite <- (firstn_skipn (length content) zs), Es. apply in_or_app. right. left. reflexivity. }
  destruct Em as (post & Em). rewrite Em. cbn [bind].
  destruct content as [|c content].
  - eexists _, post. split; [reflexivity|]. split; [|split; reflexivity].
    exists [], (NUL :: post). cbn. repeat split; try discriminate. right. split; [left; reflexivity|exact C].
  - cbn [bind]. eexists _, post. split; [reflexivity|]. split; [|split; reflexivity].
    exists [], (NUL :: post). cbn [s_kind s_buf s_idx s_size]. repeat split; try discriminate.
    right. split; [right; rewrite skipn_all; reflexivity|exact C].
Qed.
Lemma mem_file content : calmly content -> (length content <= Z.to_nat buffer_size)%nat ->
  exists st post, stream_file content = Ok st /\ mem st content /\ s_idx st = 0 /\ s_buf st = content ++ NUL :: post.
Proof.
  intros C L. destruct (mem_read content buffer_size C eq_refl L) as (st & post & E & R). unfold stream_file.
  rewrite E. cbn [bind]. eauto.
Qed.
Lemma mem_prebuffer st s : mem st s ->
  exists st', prebuffer st = Ok (st', false) /\ mem st' s /\ (st' = st \/ (s_idx st' = 0 /\ s_kind st <> MEM)).
Proof.
  intros (pre & post & W & B & P & I & Z). unfold prebuffer.
  assert (Same : mem st s) by (exists pre, post; auto).
  destruct W as [[_ K]|[[K|K] C]]; rewrite K; [exists st; auto..|].
  assert (Wn : whole (FD None) s) by (right; auto).
  destruct (Z.ltb_spec 0 (s_idx st)) as [L1|L1]; [destruct (Z.ltb_spec 0 (s_size st - s_idx st)) as [L2|L2]|]; cbn [andb].
  - rewrite B, mem_sub_app by lia. cbn [bind].
    assert (E : memcpy_to (pre ++ s ++ post) 0 s = Ok (s ++ skipn (length s) (pre ++ s ++ post))).
    { unfold memcpy_to. change (0 <? 0) with false. cbn [orb].
      destruct (Z.ltb_spec (Z.of_nat (length (pre ++ s ++ post))) (0 + Z.of_nat (length s))) as [F|F]; [rewrite !app_length in F; lia|].
      reflexivity. }
    rewrite E. cbn [bind]. rewrite firstn_nil.
    assert (N : skipn (length s) (pre ++ s ++ post) <> []).
    { intros F. apply (f_equal (@length _)) in F. rewrite skipn_length, !app_length in F. destruct post; [contradiction|]. simpl in F. lia. }
    set (post' := skipn _ _) in *. clearbody post'. clear E.
    replace (s_size st - s_idx st) with (Z.of_nat (length s)) by lia.
    unfold memcpy_to. replace (Z.of_nat (length s) <? 0) with false by (symmetry; apply Z.ltb_ge; lia). cbn [orb].
    destruct (Z.ltb_spec (Z.of_nat (length (s ++ post'))) (Z.of_nat (length s) + Z.of_nat (length (@nil ascii)))) as [F|F];
      [rewrite app_length in F; simpl in F; lia|].
    cbn [bind]. eexists. split; [reflexivity|]. split; [|right; split; [reflexivity|congruence]].
    exists [], post'. cbn [s_kind s_buf s_idx s_size app length]. repeat split; auto.
    rewrite nat_id, Nat.add_0_r, firstn_skipn. reflexivity.
  - assert (s = []) by (destruct s; [reflexivity|simpl length in Z; lia]). subst s. simpl length in Z. rewrite Z.add_0_r in Z.
    replace (s_idx st =? 0) with false by (symmetry; apply Z.eqb_neq; lia). rewrite andb_false_r. cbn [bind].
    replace (s_size st =? s_idx st) with true by (symmetry; apply Z.eqb_eq; lia). rewrite firstn_nil.
    unfold memcpy_to. change (0 <? 0) with false. cbn [orb length].
    replace (Z.of_nat (length (s_buf st)) <? 0 + Z.of_nat 0) with false by (symmetry; apply Z.ltb_ge; lia).
    cbn [bind]. eexists. split; [reflexivity|]. split; [|right; split; [reflexivity|congruence]].
    exists [], (s_buf st). cbn [s_kind s_buf s_idx s_size app length]. repeat split; auto.
    rewrite B. destruct pre; [exact P|discriminate].
  - assert (pre = []) by (destruct pre; [reflexivity|simpl length in I; lia]). subst pre. cbn [length app] in *.
    change (Z.of_nat 0) with 0 in *. rewrite Z.add_0_l in Z. rewrite I, Z. change (0 =? 0) with true. rewrite andb_true_r.
    assert (Q : forall b p, b = s ++ p -> memcpy_to b (Z.of_nat (length s)) [] = Ok b).
    { intros b p ->. unfold memcpy_to. replace (Z.of_nat (length s) <? 0) with false by (symmetry; apply Z.ltb_ge; lia). cbn [orb].
      destruct (Z.ltb_spec (Z.of_nat (length (s ++ p))) (Z.of_nat (length s) + Z.of_nat (length (@nil ascii)))) as [F|F];
        [rewrite app_length in F; simpl in F; lia|]. rewrite nat_id, Nat.add_0_r. cbn [app]. rewrite firstn_skipn. reflexivity. }
    destruct (_ =? s_bufsize st); cbn [bind]; rewrite firstn_nil.
    + rewrite (Q _ (post ++ repeat NUL (Z.to_nat (s_bufsize st)))) by (rewrite B, app_assoc; reflexivity). cbn [bind].
      eexists. split; [reflexivity|]. split; [|right; split; [reflexivity|congruence]].
      exists [], (post ++ repeat NUL (Z.to_nat (s_bufsize st))). cbn [s_kind s_buf s_idx s_size app length]. repeat split; auto.
      * rewrite B, app_assoc. reflexivity.
      * destruct post; [contradiction|discriminate].
    + replace (if Z.of_nat (length s) =? 0 then 0 else Z.of_nat (length s)) with (Z.of_nat (length s))
        by (destruct s; [reflexivity|]; destruct (Z.eqb_spec (Z.of_nat (length (a :: s))) 0); [simpl length in *; lia|reflexivity]).
      rewrite (Q _ post B). cbn [bind]. eexists. split; [reflexivity|]. split; [|right; split; [reflexivity|congruence]].
      exists [], post. cbn [s_kind s_buf s_idx s_size app length]. repeat split; auto.
Qed.
Lemma mem_turns st s : mem st s -> (length s + 2 < turns st)%nat.
Proof. intros (pre & post & W & B & P & _). unfold turns. rewrite B, !app_length. destruct post; [contradiction|]. simpl. lia. Qed.
Lemma mem_set_prev st s p : mem st s -> mem (set_pos st (s_idx st) p) s.
Proof. intros (pre & post & K & B & P & I & Z). exists pre, post. repeat split; assumption. Qed.
Lemma mem_advance st a s p i : mem st (a ++ s) -> i = s_idx st + Z.of_nat (length a) ->
  mem (set_pos st i p) s.
Proof.
  intros (pre & post & K & B & P & I & Z) ->. exists (pre ++ a), post. cbn [set_pos s_kind s_buf s_idx s_size].
  rewrite B, I, Z, !app_length, <- !app_assoc. repeat split; try assumption; try lia. eapply whole_suffix, K.
Qed.
Lemma mem_move st s st' s' a : mem st s -> mem st' s' -> s = a ++ s' -> s_buf st = s_buf st' -> s_size st = s_size st' ->
  s_kind st = s_kind st' -> mem (stream_move st' (s_idx st)) s.
Proof.
  intros (pre & post & K & B & P & I & Z) (pre' & post' & K' & B' & P' & I' & Z') E1 E2 E3 E4. exists pre, post.
  unfold stream_move, stream_accept. cbn [set_pos s_kind s_buf s_idx s_size].
  rewrite <- E2, <- E3, <- E4. auto.
Qed.

(** nothing moved inside the buffer, unless fewer than [n] bytes remained *)
Definition still (st st' : stream) : Prop :=
  s_kind st' = s_kind st /\ s_buf st' = s_buf st /\ s_size st' = s_size st.
Definition kept (n : nat) (s : bytes) (st st' : stream) : Prop :=
  (still st st' /\ s_idx st' = s_idx st) \/ (s_idx st' = 0 /\ (length s < n)%nat /\ s_kind st <> MEM).
Lemma still_refl st : still st st.
Proof. repeat split. Qed.
Lemma still_trans a b c : still a b -> still b c -> still a c.
Proof. intros (A & B & C) (A' & B' & C'). repeat split; congruence. Qed.
Lemma kept_refl n s st : kept n s st st.
Proof. left. split; [apply still_refl|reflexivity]. Qed.
Lemma kept_trans n m s a b c : kept n s a b -> kept m s b c -> kept (Nat.max n m) s a c.
Proof.
  intros [[S1 I1]|(I1 & L1 & K1)] [[S2 I2]|(I2 & L2 & K2)].
  - left. split; [eapply still_trans; eassumption|congruence].
  - right. destruct S1 as (S1 & _). rewrite S1 in K2. repeat split; [assumption|lia|assumption].
  - right. repeat split; [congruence|lia|assumption].
  - right. repeat split; [assumption|lia|assumption].
Qed.

(** ** comparing *)
Lemma memcmp_after : forall c s t z i n, nul_free c -> c <> [] -> n = i + Z.of_nat (length c) ->
  memcmp_loop (c ++ NUL :: t) (s ++ NUL :: z) i n = Ok (match after c s with Some _ => true | None => false end).
Proof.
  induction c as [|x c IH]; intros s t z i n Hc Hne E; [contradiction|].
  apply nul_free_cons in Hc. destruct Hc as [Hx Hc].
  destruct s as [|y s].
  - simpl. rewrite Hx. reflexivity.
  - simpl. rewrite Hx. destruct (Ascii.eqb_spec y NUL) as [Ey|Ey].
    + subst y. rewrite Hx. reflexivity.
    + destruct (Ascii.eqb_spec x y) as [->|Exy]; simpl; [|reflexivity].
      simpl length in E. rewrite Nat2Z.inj_succ in E.
      destruct c as [|x' c].
      * simpl in E. replace (i + 1 =? n) with true by (symmetry; apply Z.eqb_eq; simpl in E; lia). destruct s; reflexivity.
      * replace (i + 1 =? n) with false by (symmetry; apply Z.eqb_neq; simpl length in E; lia).
        apply IH; [assumption|discriminate|lia].
Qed.
Lemma after_len c : forall s r, after c s = Some r -> length s = (length c + length r)%nat.
Proof. intros s r H. apply after_Some in H. subst. apply app_length. Qed.
Lemma after_short c s : (length s < length c)%nat -> after c s = None.
Proof. intros L. destruct (after c s) as [r|] eqn:E; [|reflexivity]. apply after_len in E. lia. Qed.

(** what an inspection says: 1 and what follows, 0, or -1 *)
Definition insp (s c : bytes) : Z :=
  match after c s with Some _ => 1 | None => if (length s <? length c)%nat then -1 else 0 end.
Definition rest_of (s c : bytes) : bytes := match after c s with Some r => r | None => s end.

Lemma memcmp_cs_end c s z n : nul_free c -> c <> [] -> n = Z.of_nat (length c) ->
  axl_memcmp (cs c) (s ++ NUL :: z) n = Ok (match after c s with Some _ => true | None => false end).
Proof. intros Hc Hne ->. unfold axl_memcmp, cs. apply memcmp_after; auto; lia. Qed.
Lemma memcmp_within : forall c s t z i n, nul_free c -> c <> [] -> n = i + Z.of_nat (length c) -> (length c <= length s)%nat ->
  memcmp_loop (c ++ NUL :: t) (s ++ z) i n = Ok (match after c s with Some _ => true | None => false end).
Proof.
  induction c as [|x c IH]; intros s t z i n Hc Hne E Ln; [contradiction|].
  apply nul_free_cons in Hc. destruct Hc as [Hx Hc].
  destruct s as [|y s]; [simpl in Ln; lia|].
  simpl. rewrite Hx. destruct (Ascii.eqb_spec y NUL) as [Ey|Ey].
  - subst y. rewrite Hx. reflexivity.
  - destruct (Ascii.eqb_spec x y) as [->|Exy]; simpl; [|reflexivity].
    simpl length in E, Ln. rewrite Nat2Z.inj_succ in E.
    destruct c as [|x' c].
    + simpl in E. replace (i + 1 =? n) with true by (symmetry; apply Z.eqb_eq; simpl in E; lia). destruct s; reflexivity.
    + replace (i + 1 =? n) with false by (symmetry; apply Z.eqb_neq; simpl length in E; lia).
      apply IH; [assumption|discriminate|lia|lia].
Qed.
Lemma memcmp_cs c s z n : nul_free c -> c <> [] -> n = Z.of_nat (length c) -> (length c <= length s)%nat ->
  axl_memcmp (cs c) (s ++ z) n = Ok (match after c s with Some _ => true | None => false end).
Proof. intros Hc Hne -> L. unfold axl_memcmp, cs. apply memcmp_within; auto; lia. Qed.

Lemma common_inspect_ok acc st s c : mem st s -> nul_free c -> c <> [] ->
  exists st', common_inspect acc st c = Ok (st', insp s c) /\
    (if acc then mem st' (rest_of s c)
     else mem st' s /\ kept (length c) s st st' /\ (after c s <> None -> mem (stream_accept st') (rest_of s c))).
Proof.
  intros M Hc Hne. pose proof M as (pre & post & K & B & P & I & Z). unfold common_inspect.
  destruct (Z.ltb_spec (s_size st) (Z.of_nat (length c) + s_idx st)) as [L|L].
  - destruct (mem_prebuffer _ _ M) as (st' & E & M' & D). rewrite E. cbn [bind negb]. unfold insp, rest_of.
    rewrite after_short by lia. replace (length s <? length c)%nat with true by (symmetry; apply Nat.ltb_lt; lia).
    exists st'. destruct acc; repeat split; auto; [|congruence].
    destruct D as [->|[D Dk]]; [apply kept_refl|right; repeat split; [exact D|lia|exact Dk]].
  - cbn [bind]. rewrite B, ptr_at_app by assumption. cbn [bind].
    rewrite memcmp_cs by (auto; lia). cbn [bind]. unfold insp, rest_of.
    destruct (after c s) as [r|] eqn:A.
    + apply after_Some in A. subst s. eexists. split; [reflexivity|].
      destruct acc; [|split; [|split]].
      * unfold stream_accept. eapply mem_advance; [apply mem_set_prev, M|]. reflexivity.
      * apply mem_set_prev, M.
      * left. split; [repeat split|reflexivity]; cbn; auto.
      * intros _. unfold stream_accept. eapply mem_advance; [apply mem_set_prev, M|]. reflexivity.
    + replace (length s <? length c)%nat with false by (symmetry; apply Nat.ltb_ge; lia).
      exists st. destruct acc; repeat split; auto; [apply kept_refl|congruence].
Qed.
Lemma inspect_ok st s c : mem st s -> nul_free c -> c <> [] ->
  exists st', stream_inspect st c = Ok (st', insp s c) /\ mem st' (rest_of s c).
Proof.
  intros M Hc Hne. destruct (common_inspect_ok true st s c M Hc Hne) as (st' & E & H). eauto.
Qed.
Lemma peek_ok st s c : mem st s -> nul_free c -> c <> [] ->
  exists st', stream_peek st c = Ok (st', insp s c) /\ mem st' s /\ kept (length c) s st st' /\
    (after c s <> None -> mem (stream_accept st') (rest_of s c)).
Proof.
  intros M Hc Hne. destruct (common_inspect_ok false st s c M Hc Hne) as (st' & E & ? & ? & ?). eauto 10.
Qed.
Lemma insp_pos s c : (0 <? insp s c) = match after c s with Some _ => true | None => false end.
Proof. unfold insp. destruct (after c s); [reflexivity|]. destruct (_ <? _)%nat; reflexivity. Qed.

(** ** white space *)
Fixpoint skip (s : bytes) : bytes := match s with [] => [] | c :: r => if is_ws c then skip r else s end.
Lemma skip_split s : exists w, s = w ++ skip s /\ forallb is_ws w = true.
Proof.
  induction s as [|c s (w & E & W)]; simpl; [exists []; auto|]. destruct (is_ws c) eqn:Ec.
  - exists (c :: w). simpl. rewrite Ec, <- E. auto.
  - exists []. auto.
Qed.
Lemma skip_len s : (length (skip s) <= length s)%nat.
Proof. induction s as [|c s IH]; simpl; [lia|]. destruct (is_ws c); simpl; lia. Qed.
Lemma skip_skip s : skip (skip s) = skip s.
Proof. induction s as [|c s IH]; simpl; [reflexivity|]. destruct (is_ws c) eqn:E; [exact IH|]. simpl. rewrite E. reflexivity. Qed.

(** either the position moved over the white space, or all of it was white space *)
Definition skipped (s : bytes) (st st' : stream) : Prop :=
  still st st' \/ (s_idx st' = 0 /\ skip s = []).
Lemma spaces_loop_ok : forall s st f, mem st s -> (length s < f)%nat ->
  exists st', spaces_loop f st (s_size st - s_idx st) = Ok st' /\ mem st' (skip s) /\ skipped s st st'.
Proof.
  induction s as [|c s IH]; intros st f M L; (destruct f as [|f]; [simpl in L; lia|]);
    pose proof M as (pre & post & K & B & P & I & Z); cbn [spaces_loop].
  - destruct (Z.ltb_spec (s_size st - s_idx st - 1) 0) as [L'|L']; [|simpl in Z; lia].
    destruct (mem_prebuffer _ _ M) as (st' & E & M' & D). rewrite E. cbn [bind]. exists st'.
    split; [reflexivity|]. split; [exact M'|]. destruct D as [->|[D _]]; [left; apply still_refl|right; auto].
  - simpl length in *. rewrite Nat2Z.inj_succ in Z.
    destruct (Z.ltb_spec (s_size st - s_idx st - 1) 0) as [L'|L']; [lia|]. cbn [bind].
    rewrite B, <- app_comm_cons, rd_app by assumption. cbn [bind skip].
    destruct (is_ws c) eqn:W;
      [|exists st; split; [reflexivity|]; split; [exact M|left; apply still_refl]].
    set (st1 := set_pos st (s_idx st + 1) 0).
    assert (M1 : mem st1 s) by (apply (mem_advance st [c]); [exact M|reflexivity]).
    destruct (IH st1 f M1 ltac:(lia)) as (st' & E & M' & D). exists st'.
    replace (s_size st - s_idx st - 1) with (s_size st1 - s_idx st1) by (unfold st1; cbn; lia).
    split; [exact E|]. split; [exact M'|]. unfold skipped in *. cbn [skip]. rewrite W.
    destruct D as [D|D]; [left; exact D|right; exact D].
Qed.
Lemma spaces_ok st s : mem st s ->
  exists st', consume_spaces st = Ok st' /\ mem st' (skip s) /\ skipped s st st'.
Proof. intros M. apply spaces_loop_ok; [exact M|]. pose proof (mem_turns _ _ M). lia. Qed.

Lemma remains_ok st s : mem st s -> exists st', stream_remains st = Ok (st', match s with [] => false | _ => true end) /\
  mem st' s /\ (s <> [] -> st' = st).
Proof.
  intros M. pose proof M as (pre & post & K & B & P & I & Z). unfold stream_remains.
  destruct s as [|c s]; simpl length in Z.
  - replace (s_size st <=? s_idx st) with true by (symmetry; apply Z.leb_le; lia).
    destruct (mem_prebuffer _ _ M) as (st' & E & M' & _). exists st'. split; [exact E|]. split; [exact M'|congruence].
  - rewrite Nat2Z.inj_succ in Z. replace (s_size st <=? s_idx st) with false by (symmetry; apply Z.leb_gt; lia). eauto.
Qed.

(** ** reading up to a terminator *)
Definition good_chunk (c : bytes) : Prop := nul_free c /\ c <> [].

(** the terminator that starts [s], and its length *)
Fixpoint hit (chunks : list bytes) (s : bytes) (it : Z) : option (Z * nat) :=
  match chunks with
  | [] => None
  | c :: r =>
    if ws_chunk c then hit r s (it + 1)
    else match after c s with Some _ => Some (it, length c) | None => hit r s (it + 1) end
  end.
Definition stop_at (chunks : list bytes) (s : bytes) : option (Z * nat) :=
  if existsb ws_chunk chunks && match s with c :: _ => is_ws c | [] => false end
  then Some (empty_index chunks 0 0, 1%nat) else hit chunks s 0.
(** the text before the first terminator, which one it is, the text from it on and
    the text after it *)
Fixpoint until (chunks : list bytes) (s : bytes) : option (bytes * Z * bytes * bytes) :=
  match s with
  | [] => None
  | c :: r =>
    match stop_at chunks s with
    | Some (it, n) => Some ([], it, s, skipn n s)
    | None => match until chunks r with Some (t, it, a, b) => Some (c :: t, it, a, b) | None => None end
    end
  end.

Lemma ws_chunk_len c : good_chunk c -> chunk_len c = if ws_chunk c then 0 else Z.of_nat (length c).
Proof. reflexivity. Qed.
Lemma match_chunks_ok : forall chunks pre s post it, Forall good_chunk chunks -> s <> [] ->
  match_chunks chunks (pre ++ s ++ post) (Z.of_nat (length pre) + Z.of_nat (length s)) (Z.of_nat (length pre)) it =
  Ok (match hit chunks s it with Some (i, n) => Some (i, Z.of_nat n) | None => None end).
Proof.
  induction chunks as [|c chunks IH]; intros pre s post it G Hs; [reflexivity|].
  pose proof (Forall_inv G) as [Hc Hne]. apply Forall_inv_tail in G. cbn [match_chunks hit].
  unfold chunk_len. destruct (ws_chunk c).
  - cbn [andb Z.ltb]. replace (0 <? 0) with false by reflexivity. cbn [bind andb]. apply IH; assumption.
  - destruct c as [|x c]; [contradiction|]. destruct s as [|y s]; [contradiction|].
    replace (0 <? Z.of_nat (length (x :: c))) with true by (symmetry; apply Z.ltb_lt; simpl length; lia). cbn [andb].
    destruct (Z.leb_spec (Z.of_nat (length pre) + Z.of_nat (length (x :: c)))
               (Z.of_nat (length pre) + Z.of_nat (length (y :: s)))) as [L|L].
    + rewrite <- !app_comm_cons, rd_app by reflexivity. cbn [bind]. replace (rd (cs (x :: c)) 0) with (Ok x) by reflexivity. cbn [bind].
      cbn [after]. destruct (Ascii.eqb_spec x y) as [->|E].
      * destruct c as [|x' c].
        -- cbn [length]. replace (Z.of_nat 1 =? 1) with true by reflexivity. cbn [bind after]. reflexivity.
        -- replace (Z.of_nat (length (y :: x' :: c)) =? 1) with false by (symmetry; apply Z.eqb_neq; simpl length; lia).
           replace (pre ++ y :: s ++ post) with ((pre ++ [y]) ++ s ++ post) at 1 by (rewrite <- app_assoc; reflexivity).
           rewrite ptr_at_app by (rewrite app_length; simpl length; lia). cbn [bind tl].
           apply nul_free_cons in Hc.
           rewrite memcmp_cs; [|apply Hc|discriminate|simpl length; lia|simpl length in *; lia]. cbn [bind].
           destruct (after (x' :: c) s); [reflexivity|]. apply (IH pre (y :: s)); [assumption|discriminate].
      * cbn [bind]. apply (IH pre (y :: s)); [assumption|discriminate].
    + cbn [bind]. rewrite after_short by lia. apply IH; [assumption|discriminate].
Qed.
Lemma match_at_ok chunks pre s post : Forall good_chunk chunks -> s <> [] ->
  match_at chunks (pre ++ s ++ post) (Z.of_nat (length pre) + Z.of_nat (length s)) (Z.of_nat (length pre)) =
  Ok (match stop_at chunks s with Some (i, n) => Some (i, Z.of_nat n) | None => None end).
Proof.
  intros G Hs. unfold match_at, stop_at. destruct s as [|y s]; [contradiction|].
  destruct (existsb ws_chunk chunks) eqn:E; cbn [andb bind].
  - rewrite <- app_comm_cons, rd_app by reflexivity. cbn [bind]. destruct (is_ws y); [reflexivity|].
    rewrite app_comm_cons. apply match_chunks_ok; [assumption|discriminate].
  - apply match_chunks_ok; [assumption|discriminate].
Qed.
Lemma hit_len chunks s : forall it i n, Forall good_chunk chunks -> hit chunks s it = Some (i, n) -> (1 <= n <= length s)%nat.
Proof.
  induction chunks as [|c chunks IH]; intros it i n G H; [discriminate|].
  pose proof (Forall_inv G) as [_ Hne]. apply Forall_inv_tail in G. cbn [hit] in H.
  destruct (ws_chunk c); [eapply IH; eassumption|]. destruct (after c s) as [r|] eqn:A; [|eapply IH; eassumption].
  inversion H; subst. apply after_len in A. destruct c; [contradiction|simpl in *; lia].
Qed.
Lemma stop_len chunks s i n : Forall good_chunk chunks -> stop_at chunks s = Some (i, n) -> (1 <= n <= length s)%nat.
Proof.
  intros G H. unfold stop_at in H. destruct s as [|c s].
  - rewrite andb_false_r in H. eapply hit_len; eassumption.
  - destruct (existsb ws_chunk chunks && is_ws c); [inversion H; simpl; lia|]. eapply hit_len; eassumption.
Qed.
Lemma until_split chunks : Forall good_chunk chunks -> forall s t it a b, until chunks s = Some (t, it, a, b) ->
  exists m, s = t ++ a /\ a = m ++ b /\ m <> [] /\ stop_at chunks a = Some (it, length m).
Proof.
  intros G. induction s as [|c s IH]; intros t it a b H; [discriminate|]. cbn [until] in H.
  destruct (stop_at chunks (c :: s)) as [[i n]|] eqn:E.
  - inversion H; subst. exists (firstn n (c :: s)). pose proof (stop_len _ _ _ _ G E) as L.
    rewrite firstn_skipn. repeat split; auto.
    + intros F. apply (f_equal (@length _)) in F. rewrite firstn_length in F. simpl in F, L. lia.
    + rewrite firstn_length, Nat.min_l by lia. assumption.
  - destruct (until chunks s) as [[[[t' i'] a'] b']|]; [|discriminate]. inversion H; subst.
    destruct (IH t' it a b eq_refl) as (m & E1 & E2 & E3). exists m. simpl. rewrite <- E1. auto.
Qed.

Lemma set_pos_same st b i p : s_buf st = b -> set_pos (set_buf st b) i p = set_pos st i p.
Proof. intros <-. reflexivity. Qed.

Lemma until_result_ok chunks acc ref st t0 s it n : Forall good_chunk chunks -> (ref = true -> acc = true) ->
  mem st (t0 ++ s) -> stop_at chunks s = Some (it, n) ->
  exists st', until_result st acc ref (Z.of_nat (length t0)) (Z.of_nat n) it =
      Ok (st', if ref && (match t0 with [] => true | _ => false end) then None else Some (t0, it)) /\
      mem st' (if acc then skipn n s else s).
Proof.
  intros G Hra M S. pose proof (stop_len _ _ _ _ G S) as Ln. clear S.
  pose proof M as (pre & post & K & B & P & I & Z). rewrite app_length in Z.
  unfold until_result. rewrite B. rewrite <- app_assoc, mem_sub_app by auto. cbn [bind].
  replace (Z.of_nat (length t0) =? 0) with (match t0 with [] => true | _ => false end)
    by (destruct t0; [reflexivity|symmetry; apply Z.eqb_neq; simpl length; lia]).
  pose proof (firstn_skipn n s) as FS.
  assert (FL : length (firstn n s) = n) by (rewrite firstn_length; lia).
  destruct ref.
  - rewrite (Hra eq_refl). destruct s as [|c s]; [simpl in Ln; lia|].
    rewrite (app_assoc pre), <- app_comm_cons, wr_app by (rewrite app_length; lia). cbn [bind].
    eexists. split; [reflexivity|].
    destruct n as [|n]; [lia|]. cbn [skipn] in *. cbn [firstn] in *.
    exists (pre ++ t0 ++ NUL :: firstn n s), post. cbn [set_pos set_buf s_kind s_buf s_idx s_size].
    pose proof (firstn_skipn n s) as FS'. simpl in FL. simpl in Ln.
    assert (length s = (n + length (skipn n s))%nat) by (rewrite <- FS' at 1; rewrite app_length; lia).
    repeat split; [| |assumption| |].
    + apply (whole_suffix _ (t0 ++ c :: firstn n s)). rewrite <- app_assoc. cbn [app]. rewrite FS'. exact K.
    + rewrite <- !app_assoc. cbn [app].
      rewrite (app_assoc (firstn n s)), FS'. reflexivity.
    + rewrite !app_length. simpl length. rewrite firstn_length. lia.
    + rewrite !app_length. simpl length in *. rewrite firstn_length. lia.
  - cbn [bind andb]. rewrite set_pos_same by (rewrite B, <- app_assoc; reflexivity). eexists. split; [reflexivity|].
    destruct acc.
    + apply (mem_advance st (t0 ++ firstn n s)).
      * rewrite <- app_assoc, FS. exact M.
      * rewrite app_length. lia.
    + apply (mem_advance st t0); [exact M|]. lia.
Qed.
Lemma until_loop_ok chunks acc ref : Forall good_chunk chunks -> (ref = true -> acc = true) ->
  forall s t0 st f, mem st (t0 ++ s) -> (length s < f)%nat ->
  match until chunks s with
  | None => exists st', until_loop f st chunks acc ref (Z.of_nat (length t0)) (Z.of_nat (length s)) false = Ok (st', None) /\
      mem st' (t0 ++ s)
  | Some (t, it, a, b) =>
    exists st', until_loop f st chunks acc ref (Z.of_nat (length t0)) (Z.of_nat (length s)) false =
      Ok (st', if ref && (match t0 ++ t with [] => true | _ => false end) then None else Some (t0 ++ t, it)) /\
      mem st' (if acc then b else a)
  end.
Proof.
  intros G Hra. induction s as [|c s IH]; intros t0 st f M L; (destruct f as [|f]; [simpl in L; lia|]);
    pose proof M as (pre & post & K & B & P & I & Z);
    cbn [until until_loop].
  - simpl length. replace (Z.of_nat 0 - 1 <? 0) with true by reflexivity.
    destruct (mem_prebuffer _ _ M) as (st' & E & M' & _).
    destruct K as [[_ K]|[K _]]; [rewrite K; exists st; auto|].
    destruct K as [K|K]; rewrite K; rewrite E; cbn [bind]; exists st'; auto.
  - rewrite app_length in Z. simpl length in *. rewrite Nat2Z.inj_succ in *.
    destruct (Z.ltb_spec (Z.succ (Z.of_nat (length s)) - 1) 0) as [L'|L']; [lia|]. cbn [bind].
    rewrite B. replace (s_size st) with (Z.of_nat (length (pre ++ t0)) + Z.of_nat (length (c :: s)))
      by (rewrite app_length; simpl length; lia).
    replace (s_idx st + Z.of_nat (length t0)) with (Z.of_nat (length (pre ++ t0))) by (rewrite app_length; lia).
    replace (pre ++ (t0 ++ c :: s) ++ post) with ((pre ++ t0) ++ (c :: s) ++ post) by (rewrite <- !app_assoc; reflexivity).
    rewrite match_at_ok by (assumption || discriminate). cbn [bind].
    destruct (stop_at chunks (c :: s)) as [[it n]|] eqn:S.
    + rewrite app_nil_r.
      pose proof (until_result_ok chunks acc ref st t0 (c :: s) it n G Hra M S) as R.
      destruct (_ <? _); cbn [andb]; [|exact R]. destruct (_ =? _); [|exact R].
      destruct (mem_prebuffer _ _ M) as (st' & E & M' & _). rewrite E. cbn [bind].
      exact (until_result_ok chunks acc ref st' t0 (c :: s) it n G Hra M' S).
    + replace (Z.succ (Z.of_nat (length s)) - 1) with (Z.of_nat (length s)) by lia.
      specialize (IH (t0 ++ [c]) st f). rewrite app_length in IH. simpl length in IH.
      replace (Z.of_nat (length t0 + 1)) with (Z.of_nat (length t0) + 1) in IH by lia.
      rewrite <- app_assoc in IH. specialize (IH M ltac:(lia)).
      destruct (until chunks s) as [[[[t i'] a] b]|]; [|exact IH].
      rewrite <- app_assoc in IH. exact IH.
Qed.
Lemma until_len chunks s t it a b : Forall good_chunk chunks -> until chunks s = Some (t, it, a, b) ->
  (length t + length b < length s)%nat /\ (length t + length a = length s)%nat.
Proof.
  intros G H. destruct (until_split _ G _ _ _ _ _ H) as (m & -> & -> & Hm & _). rewrite !app_length.
  destruct m; [contradiction|]. simpl. lia.
Qed.
Lemma get_until_ok st s acc chunks : mem st s -> Forall good_chunk chunks ->
  match until chunks s with
  | None => exists st', get_until st acc chunks = Ok (st', None) /\ mem st' s
  | Some (t, it, a, b) => exists st', get_until st acc chunks = Ok (st', Some (t, it)) /\ mem st' (if acc then b else a)
  end.
Proof.
  intros M G. pose proof M as (pre & post & K & B & P & I & Z). unfold get_until.
  replace (s_size st - s_idx st) with (Z.of_nat (length s)) by lia.
  pose proof (mem_turns _ _ M).
  pose proof (until_loop_ok chunks acc false G ltac:(discriminate) s [] st (turns st) M ltac:(lia)) as H'.
  destruct (until chunks s) as [[[[t it] a] b]|]; exact H'.
Qed.
Lemma get_until_ref_ok st s chunks : mem st s -> Forall good_chunk chunks ->
  match until chunks s with
  | None => exists st', get_until_ref st true chunks = Ok (st', None) /\ mem st' s
  | Some (t, it, a, b) =>
    exists st', get_until_ref st true chunks = Ok (st', match t with [] => None | _ => Some (t, it) end) /\ mem st' b
  end.
Proof.
  intros M G. pose proof M as (pre & post & K & B & P & I & Z). unfold get_until_ref.
  replace (s_size st - s_idx st) with (Z.of_nat (length s)) by lia.
  pose proof (mem_turns _ _ M).
  pose proof (until_loop_ok chunks true true G ltac:(auto) s [] st (turns st) M ltac:(lia)) as H'.
  destruct (until chunks s) as [[[[t it] a] b]|]; [|exact H'].
  destruct H' as (st' & E & M'). exists st'. split; [|exact M'].
  etransitivity; [exact E|]. cbn [andb app]. destruct t; reflexivity.
Qed.
End Ctx.
Lemma mem_new content : mem (stream_mem content) content.
Proof. exists [], [NUL]. repeat split; try reflexivity; [left; split; [exact I|reflexivity]|discriminate]. Qed.
Lemma whole_mem k s : k = MEM -> whole k s.
Proof. intros K. left. split; [exact I|exact K]. Qed.
