(** File streams with any content: reading stays inside the buffer and loses nothing of
    what is left of the file; only a comparison next to the end can see old bytes. *)
From Verif Require Import Prelude StrModel StrSpec StrProofs StreamModel StreamProofs.
Open Scope Z_scope.
Local Arguments Z.of_nat : simpl never.
Local Arguments Z.to_nat : simpl never.
Local Arguments Z.add : simpl never.
Local Arguments Z.sub : simpl never.
Local Arguments Z.eqb : simpl never.
Local Arguments Z.ltb : simpl never.
Local Arguments Z.leb : simpl never.

Definition txt (f : option bytes) : bytes := match f with Some l => l | None => [] end.
Definition open (f : option bytes) : nat := match f with Some _ => 1 | None => 0 end.
(** [w] is the unread part of the buffer and [f] the file *)
Definition norm (st : stream) (w : bytes) (f : option bytes) : Prop :=
  exists pre post, s_kind st = FD f /\ s_buf st = pre ++ w ++ post /\
    s_idx st = Z.of_nat (length pre) /\ s_size st = Z.of_nat (length pre) + Z.of_nat (length w) /\
    Z.of_nat (length (s_buf st)) = s_bufsize st + 1 /\ s_size st <= s_bufsize st /\ 64 <= s_bufsize st.
(** the position is behind the end: old bytes were accepted *)
Definition over (st : stream) (w : bytes) : Prop :=
  exists post, s_kind st = FD (Some []) /\ s_buf st = w ++ post /\ s_size st = Z.of_nat (length w) /\ s_size st < s_idx st /\
    Z.of_nat (length (s_buf st)) = s_bufsize st + 1 /\ s_size st <= s_bufsize st /\ 64 <= s_bufsize st.
(** [s] is what remains to be read; [b] is 1 when the file is open *)
Definition nrm (st : stream) (s : bytes) (b : nat) : Prop := exists w f, norm st w f /\ s = w ++ txt f /\ b = open f.
Definition live (st : stream) (s : bytes) (m : nat) : Prop :=
  (exists b, nrm st s b /\ m = (length s + b)%nat) \/ (over st s /\ m = length s).
Definition suffix (s s' : bytes) : Prop := exists a, s' = a ++ s.

Lemma suffix_refl s : suffix s s.
Proof. exists []. reflexivity. Qed.
Lemma suffix_trans a b c : suffix a b -> suffix b c -> suffix a c.
Proof. intros [x ->] [y ->]. exists (y ++ x). apply app_assoc. Qed.
Lemma suffix_app a s : suffix s (a ++ s).
Proof. exists a. reflexivity. Qed.
Lemma suffix_len a b : suffix a b -> (length a <= length b)%nat.
Proof. intros [x ->]. rewrite app_length. lia. Qed.

Lemma split_len {A} n (l : list A) : (n <= length l)%nat -> exists a b, l = a ++ b /\ length a = n.
Proof. intros L. exists (firstn n l), (skipn n l). rewrite firstn_skipn, firstn_length. split; [reflexivity|lia]. Qed.
Definition grown (st' : stream) (more : bool) (w left : bytes) : Prop :=
  s_idx st' = 0 /\
  ((left = [] /\ more = false /\ norm st' w None) \/
   (exists d f', left = d ++ f' /\ d <> [] /\ more = true /\ norm st' (w ++ d) (Some f') /\ (f' = [] \/ (64 <= length (w ++ d))%nat))).

Lemma read_ok prev buf bs w post left : Z.of_nat (length buf) = bs + 1 -> buf = w ++ post ->
  Z.of_nat (length w) < bs -> 64 <= bs ->
  exists st' more,
    (b <- memcpy_to buf (Z.of_nat (length w)) (firstn (Z.to_nat (bs - Z.of_nat (length w))) left) ;;
    match firstn (Z.to_nat (bs - Z.of_nat (length w))) left with
    | [] => Ok (Stream (FD None) b bs (Z.of_nat (length w)) 0 prev, false)
    | _ => Ok (Stream (FD (Some (skipn (length (firstn (Z.to_nat (bs - Z.of_nat (length w))) left)) left))) b bs
                 (Z.of_nat (length w) + Z.of_nat (length (firstn (Z.to_nat (bs - Z.of_nat (length w))) left))) 0 prev, true)
    end) = Ok (st', more) /\ grown st' more w left.
Proof.
  intros Lb E Lw L64. set (k := Z.to_nat (bs - Z.of_nat (length w))).
  assert (Lp : (length post = k + 1)%nat) by (rewrite E, app_length in Lb; lia).
  assert (Lf : (length (firstn k left) <= k)%nat) by (rewrite firstn_length; lia).
  pose proof (firstn_skipn k left) as FS.
  assert (Full : skipn k left = [] \/ length (firstn k left) = k).
  { rewrite firstn_length. destruct (Nat.le_gt_cases (length left) k); [left; apply skipn_all2; lia|right; lia]. }
  assert (SL : skipn (length (firstn k left)) left = skipn k left).
  { destruct Full as [F|F]; [|rewrite F; reflexivity]. rewrite F in *. rewrite app_nil_r in FS. rewrite FS at 1.
    apply skipn_all. }
  rewrite SL. clear SL. set (x := firstn k left) in *. set (l' := skipn k left) in *. clearbody x l'.
  destruct (split_len (length x) post ltac:(lia)) as (m & p & Ep & Em). subst post.
  rewrite E, (memcpy_app w m p x) by lia. cbn [bind].
  assert (Lbuf : Z.of_nat (length (w ++ x ++ p)) = bs + 1).
  { rewrite E in Lb. rewrite !app_length in *. lia. }
  destruct x as [|c x].
  - eexists _, false. split; [reflexivity|]. split; [reflexivity|]. left.
    assert (l' = []) by (destruct Full as [F|F]; [exact F|cbn in F; lia]). subst l'. cbn in FS. subst left.
    split; [reflexivity|]. split; [reflexivity|].
    exists [], p. cbn [s_kind s_buf s_bufsize s_size s_idx app length]. cbn [app] in Lbuf.
    repeat split; try assumption; lia.
  - eexists _, true. split; [reflexivity|]. split; [reflexivity|]. right. exists (c :: x), l'.
    split; [symmetry; exact FS|]. split; [discriminate|]. split; [reflexivity|]. split.
    + exists [], p. cbn [s_kind s_buf s_bufsize s_size s_idx app length].
      rewrite <- app_assoc. rewrite app_length. repeat split; try assumption; try (simpl length in *; lia).
    + destruct Full as [F|F]; [left; exact F|right]. rewrite app_length, F. unfold k. lia.
Qed.

Lemma pre_norm st w left : norm st w (Some left) ->
  exists st' more, prebuffer st = Ok (st', more) /\ grown st' more w left.
Proof.
  intros (pre & post & K & B & I & Z & Lb & Ls & L64). unfold prebuffer. rewrite K. cbv zeta.
  destruct (Z.ltb_spec 0 (s_idx st)) as [L1|L1]; [destruct (Z.ltb_spec 0 (s_size st - s_idx st)) as [L2|L2]|]; cbn [andb].
  - rewrite B, mem_sub_app by lia. cbn [bind].
    assert (E : memcpy_to (pre ++ w ++ post) 0 w = Ok (w ++ skipn (length w) (pre ++ w ++ post))).
    { unfold memcpy_to. change (0 <? 0) with false. cbn [orb].
      destruct (Z.ltb_spec (Z.of_nat (length (pre ++ w ++ post))) (0 + Z.of_nat (length w))) as [F|F]; [rewrite !app_length in F; lia|].
      reflexivity. }
    rewrite E. cbn [bind]. clear E. replace (s_size st - s_idx st) with (Z.of_nat (length w)) by lia.
    apply (read_ok (s_prev st) _ (s_bufsize st) w (skipn (length w) (pre ++ w ++ post)) left); auto; [|lia].
    rewrite app_length, skipn_length, <- B. rewrite B, !app_length in Lb |- *. lia.
  - assert (w = []) by (destruct w; [reflexivity|simpl length in Z; lia]). subst w. simpl length in Z. rewrite Z.add_0_r in Z.
    replace (s_idx st =? 0) with false by (symmetry; apply Z.eqb_neq; lia). rewrite andb_false_r. cbn [bind].
    replace (s_size st =? s_idx st) with true by (symmetry; apply Z.eqb_eq; lia).
    apply (read_ok (s_prev st) (s_buf st) (s_bufsize st) [] (s_buf st) left); auto. cbn. lia.
  - assert (pre = []) by (destruct pre; [reflexivity|simpl length in I; lia]). subst pre. cbn [length app] in *.
    change (Z.of_nat 0) with 0 in *. rewrite Z.add_0_l in Z. rewrite I, Z. change (0 =? 0) with true. rewrite andb_true_r.
    destruct (Z.eqb_spec (Z.of_nat (length w)) (s_bufsize st)) as [E|E]; cbn [bind].
    + apply (read_ok (s_prev st) _ (s_bufsize st + s_bufsize st) w (post ++ repeat NUL (Z.to_nat (s_bufsize st))) left); auto; try lia.
      * rewrite app_length, repeat_length. lia.
      * rewrite B, app_assoc. reflexivity.
    + replace (if Z.of_nat (length w) =? 0 then 0 else Z.of_nat (length w)) with (Z.of_nat (length w))
        by (destruct (Z.eqb_spec (Z.of_nat (length w)) 0); congruence).
      apply (read_ok (s_prev st) _ (s_bufsize st) w post left); auto. lia.
Qed.
Lemma pre_none st w : norm st w None -> prebuffer st = Ok (st, false).
Proof. intros (pre & post & K & _). unfold prebuffer. rewrite K. reflexivity. Qed.
Lemma pre_over st w : over st w -> exists st', prebuffer st = Ok (st', false) /\ norm st' w None /\ s_idx st' = 0.
Proof.
  intros (post & K & B & Z & Io & Lb & Ls & L64). unfold prebuffer. rewrite K. cbv zeta.
  replace (0 <? s_size st - s_idx st) with false by (symmetry; apply Z.ltb_ge; lia). rewrite andb_false_r.
  replace (s_idx st =? 0) with false by (symmetry; apply Z.eqb_neq; lia). rewrite andb_false_r. cbn [bind].
  replace (s_size st =? s_idx st) with false by (symmetry; apply Z.eqb_neq; lia). rewrite firstn_nil, Z.
  rewrite B. rewrite (memcpy_app w [] post []) by reflexivity. cbn [bind app].
  eexists. split; [reflexivity|]. split; [|reflexivity]. exists [], post.
  cbn [s_kind s_buf s_bufsize s_size s_idx app length]. rewrite B in Lb. repeat split; auto; lia.
Qed.

(** whichever it is *)
Lemma pre_live st s m : live st s m -> exists st' more m', prebuffer st = Ok (st', more) /\ (exists b, nrm st' s b /\ m' = (length s + b)%nat) /\ (m' <= m)%nat /\
  (more = false -> exists w, norm st' w None /\ s = w) /\ (more = true -> s <> [] /\ exists w f, norm st' w f /\ s = w ++ txt f /\ w <> []).
Proof.
  intros [(b & (w & f & N & E & Eb) & Em)|[O Em]].
  - destruct f as [left|].
    + destruct (pre_norm _ _ _ N) as (st' & more & P & I & [(-> & -> & N')|(d & f' & -> & D & -> & N' & _)]).
      * exists st', false, (length s). split; [exact P|]. cbn [txt] in E. rewrite app_nil_r in E. subst w.
        split; [exists 0%nat; split; [exists s, None; cbn; rewrite app_nil_r; auto|lia]|]. split; [lia|].
        split; [eauto|discriminate].
      * exists st', true, m. split; [exact P|]. cbn [txt] in E. rewrite app_assoc in E.
        split; [exists 1%nat; split; [exists (w ++ d), (Some f'); auto|subst b; exact Em]|]. split; [lia|].
        split; [discriminate|]. intros _. assert (w ++ d <> []) by (destruct w; [exact D|discriminate]). split.
        -- rewrite E. destruct (w ++ d); [contradiction|discriminate].
        -- exists (w ++ d), (Some f'). auto.
    + exists st, false, m. split; [exact (pre_none _ _ N)|]. cbn [txt] in E. rewrite app_nil_r in E. subst w.
      split; [exists 0%nat; split; [exists s, None; cbn; rewrite app_nil_r; auto|subst b; exact Em]|].
      split; [lia|]. split; [eauto|discriminate].
  - destruct (pre_over _ _ O) as (st' & P & N & _). exists st', false, (length s). split; [exact P|].
    split; [exists 0%nat; split; [exists s, None; cbn; rewrite app_nil_r; auto|lia]|]. split; [lia|]. split; [eauto|discriminate].
Qed.

Lemma norm_pos st w f p : norm st w f -> norm (set_pos st (s_idx st) p) w f.
Proof. intros (pre & post & H). exists pre, post. exact H. Qed.
Lemma norm_advance st a w f i p : norm st (a ++ w) f -> i = s_idx st + Z.of_nat (length a) -> norm (set_pos st i p) w f.
Proof.
  intros (pre & post & K & B & I & Z & Lb & Ls & L64) ->. exists (pre ++ a), post.
  cbn [set_pos s_kind s_buf s_bufsize s_size s_idx]. rewrite B, I, Z in *. rewrite !app_length in *.
  rewrite <- !app_assoc in *. repeat split; try assumption; try lia.
Qed.
Lemma norm_turns st w f : norm st w f -> (length w + 2 * length (txt f) + 3 <= turns st)%nat.
Proof.
  intros (pre & post & K & B & I & Z & Lb & Ls & L64). unfold turns. rewrite K. destruct f; cbn [length txt]; lia.
Qed.
Lemma live_turns st s m : live st s m -> (m < turns st)%nat.
Proof.
  intros [(b & (w & f & N & -> & ->) & ->)|[(post & K & B & Z & Io & Lb & Ls & L64) ->]].
  - apply norm_turns in N. rewrite app_length. destruct f; cbn [open]; lia.
  - unfold turns. rewrite K. lia.
Qed.
Lemma nrm_live st s b : nrm st s b -> live st s (length s + b).
Proof. intros N. left. eauto. Qed.
Lemma open_1 f : (open f <= 1)%nat.
Proof. destruct f; cbn; lia. Qed.

(** nothing moved, or the buffer was refilled *)
Definition rested (st st' : stream) : Prop := (s_buf st' = s_buf st /\ s_idx st' = s_idx st) \/ s_idx st' = 0.
Lemma rested_refl st : rested st st.
Proof. left. auto. Qed.
Lemma rested_trans a b c : rested a b -> rested b c -> rested a c.
Proof. intros [[A1 A2]|A] [[B1 B2]|B]; unfold rested; [left|right|right|right]; try split; congruence. Qed.

Definition solid (c : bytes) : Prop := nul_free c /\ c <> [] /\ (length c <= 64)%nat.
(** comparing reads inside what is long enough *)
Lemma memcmp_any : forall c z t i n, n = i + Z.of_nat (length c) -> c <> [] -> nul_free c -> (length c <= length z)%nat ->
  memcmp_loop (c ++ NUL :: t) z i n = Ok (match after c z with Some _ => true | None => false end).
Proof.
  intros c z t i n E Hne Hc L. pose proof (memcmp_within c z t [] i n Hc Hne E L) as H. rewrite app_nil_r in H. exact H.
Qed.
Lemma after_app c : forall w l, (length c <= length w)%nat -> after c (w ++ l) = match after c w with Some r => Some (r ++ l) | None => None end.
Proof.
  induction c as [|x c IH]; intros [|y w] l L; simpl in *; try reflexivity; try lia.
  destruct (Ascii.eqb x y); [apply IH; lia|reflexivity].
Qed.

(** what an inspection finds *)
Definition found (acc : bool) (st st' : stream) (s c : bytes) (b : nat) (v : Z) : Prop :=
  ((v = 0 \/ v = -1) /\ after c s = None /\ rested st st' /\ exists b', nrm st' s b' /\ (b' <= b)%nat) \/
  (v = 1 /\ exists r b', after c s = Some r /\ (b' <= b)%nat /\
     if acc then nrm st' r b' else nrm st' s b' /\ rested st st' /\ nrm (stream_accept st') r b') \/
  (v = 1 /\ b = 1%nat /\ (length s < length c)%nat /\
     if acc then over st' s else norm st' s (Some []) /\ rested st st' /\ over (stream_accept st') s).
Lemma look_norm (acc : bool) st w f c : norm st w f -> solid c -> Z.of_nat (length c) + s_idx st <= s_size st ->
  exists (st' : stream) (v : Z), (p <- ptr_at (s_buf st) (s_idx st) ;;
     r <- axl_memcmp (cs c) p (Z.of_nat (length c)) ;;
     if (r : bool) then let st := set_pos st (s_idx st) (Z.of_nat (length c)) in Ok (if acc then stream_accept st else st, 1)
     else Ok (st, 0)) = Ok (st', v) /\
   ((v = 0 /\ after c (w ++ txt f) = None /\ st' = st) \/
    (v = 1 /\ exists r, after c (w ++ txt f) = Some r /\
     if acc then nrm st' r (open f) else nrm st' (w ++ txt f) (open f) /\ (s_buf st' = s_buf st /\ s_idx st' = s_idx st) /\ nrm (stream_accept st') r (open f))).
Proof.
  intros N (Hc & Hne & Hl) L. pose proof N as (pre & post & K & B & I & Z & Lb & Ls & L64).
  assert (Lw : (length c <= length w)%nat) by lia.
  rewrite B, ptr_at_app by assumption. cbn [bind]. unfold axl_memcmp, cs.
  rewrite memcmp_within by (auto; lia). cbn [bind]. rewrite (after_app c w _ Lw).
  destruct (after c w) as [r|] eqn:A.
  - apply after_Some in A. subst w. eexists _, 1. split; [reflexivity|]. right. split; [reflexivity|]. exists (r ++ txt f). split; [reflexivity|].
    assert (Fa : nrm (stream_accept (set_pos st (s_idx st) (Z.of_nat (length c)))) (r ++ txt f) (open f)).
    { exists r, f. split; [|auto]. unfold stream_accept. eapply norm_advance; [apply norm_pos, N|reflexivity]. }
    destruct acc; [exact Fa|]. split; [|split; [split; [exact B|reflexivity]|exact Fa]].
    exists (c ++ r), f. split; [apply norm_pos, N|auto].
  - eexists _, 0. split; [reflexivity|]. left. auto.
Qed.
Lemma inspect_norm acc st s b c : nrm st s b -> solid c ->
  exists st' v, common_inspect acc st c = Ok (st', v) /\ found acc st st' s c b v.
Proof.
  intros (w & f & N & -> & ->) Sc. pose proof Sc as (Hc & Hne & Hl). unfold common_inspect.
  pose proof N as (pre & post & K & B & I & Z & Lb & Ls & L64).
  assert (Nn : nrm st (w ++ txt f) (open f)) by (exists w, f; auto).
  destruct (Z.ltb_spec (s_size st) (Z.of_nat (length c) + s_idx st)) as [L|L].
  - destruct f as [left|].
    + destruct (pre_norm _ _ _ N) as (st' & more & P & I' & G). rewrite P. cbn [bind].
      destruct G as [(-> & -> & N')|(d & f' & -> & D & -> & N' & Full)]; cbn [negb].
      * exists st', (-1). split; [reflexivity|]. left. cbn [txt]. rewrite app_nil_r in *. split; [auto|].
        split; [apply after_short; lia|]. split; [right; exact I'|]. exists 0%nat. split; [|lia].
        exists w, None. cbn. rewrite app_nil_r. auto.
      * destruct (Z.le_gt_cases (Z.of_nat (length c) + s_idx st') (s_size st')) as [L'|L'].
        -- destruct (look_norm acc st' _ _ c N' Sc L') as (st2 & v & E & G). exists st2, v. split; [exact E|].
           cbn [txt open] in *. rewrite <- app_assoc in G.
           destruct G as [(-> & A & ->)|(-> & r & A & G)].
           ++ left. split; [auto|]. split; [exact A|]. split; [right; exact I'|]. exists 1%nat. split; [|lia].
              exists (w ++ d), (Some f'). cbn. rewrite <- app_assoc. auto.
           ++ right. left. split; [reflexivity|]. exists r, 1%nat. split; [exact A|]. split; [lia|].
              destruct acc; [exact G|]. destruct G as (G1 & (G2 & G3) & G4). split; [exact G1|]. split; [right; congruence|exact G4].
        -- pose proof N' as (pre' & post' & K' & B' & I2 & Z' & Lb' & Ls' & L64').
           assert (pre' = []) by (destruct pre'; [reflexivity|simpl length in I2; lia]). subst pre'. cbn [app length] in *.
           assert (f' = []) by (destruct Full as [F|F]; [exact F|exfalso; change (Z.of_nat 0) with 0 in *; lia]). subst f'. cbn [txt]. rewrite app_nil_r in *.
           change (Z.of_nat 0) with 0 in *. rewrite Z.add_0_l in Z'.
           assert (Pt : ptr_at (s_buf st') (s_idx st') = Ok (s_buf st')).
           { rewrite I2. unfold ptr_at. change (0 <? 0) with false. cbn [orb].
             destruct (Z.ltb_spec (Z.of_nat (length (s_buf st'))) 0); [lia|]. reflexivity. }
           rewrite Pt. cbn [bind]. unfold axl_memcmp, cs. rewrite memcmp_any by (auto; lia). cbn [bind].
           assert (Lc : (length (w ++ d) < length c)%nat) by (rewrite I2 in L'; lia).
           destruct (after c (s_buf st')) as [r|] eqn:A.
           ++ eexists _, 1. split; [reflexivity|]. right. right. split; [reflexivity|]. split; [reflexivity|]. split; [exact Lc|].
              assert (Ov : over (stream_accept (set_pos st' (s_idx st') (Z.of_nat (length c)))) (w ++ d)).
              { exists post'. unfold stream_accept. cbn [set_pos s_kind s_buf s_bufsize s_size s_idx s_prev].
                repeat split; auto. rewrite I2, Z'. lia. }
              destruct acc; [exact Ov|]. split; [apply norm_pos, N'|]. split; [right; exact I2|exact Ov].
           ++ eexists _, 0. split; [reflexivity|]. left. split; [auto|]. split; [apply after_short, Lc|].
              split; [right; exact I2|]. exists 1%nat. split; [|cbn; lia]. exists (w ++ d), (Some []). cbn. rewrite app_nil_r. auto.
    + rewrite (pre_none _ _ N). cbn [bind negb]. exists st, (-1). split; [reflexivity|]. left. cbn [txt open] in *. rewrite app_nil_r in *.
      split; [auto|]. split; [apply after_short; lia|]. split; [apply rested_refl|]. exists 0%nat. split; [exact Nn|lia].
  - cbn [bind]. destruct (look_norm acc st _ _ c N Sc L) as (st2 & v & E & G). exists st2, v. split; [exact E|].
    destruct G as [(-> & A & ->)|(-> & r & A & G)].
    + left. split; [auto|]. split; [exact A|]. split; [apply rested_refl|]. exists (open f). split; [exact Nn|lia].
    + right. left. split; [reflexivity|]. exists r, (open f). split; [exact A|]. split; [lia|].
      destruct acc; [exact G|]. destruct G as (G1 & G2 & G4). split; [exact G1|]. split; [left; exact G2|exact G4].
Qed.
(** nothing is left of the file, and too little of the text: then the file is closed *)
Lemma inspect_end acc st w c : norm st w (Some []) -> (length w < length c)%nat ->
  exists st', common_inspect acc st c = Ok (st', -1) /\ nrm st' w 0.
Proof.
  intros N L. unfold common_inspect. pose proof N as (pre & post & K & B & I & Z & Lb & Ls & L64).
  replace (s_size st <? Z.of_nat (length c) + s_idx st) with true by (symmetry; apply Z.ltb_lt; lia).
  destruct (pre_norm _ _ _ N) as (st' & more & P & I' & G). rewrite P. cbn [bind].
  destruct G as [(_ & -> & N')|(d & f' & E & D & _)]; [|destruct d; [contradiction|discriminate]].
  exists st'. split; [reflexivity|]. exists w, None. cbn. rewrite app_nil_r. auto.
Qed.
Lemma inspect_over acc st w c : over st w ->
  exists st', common_inspect acc st c = Ok (st', -1) /\ nrm st' w 0.
Proof.
  intros O. unfold common_inspect. pose proof O as (post & K & B & Z & Io & _).
  replace (s_size st <? Z.of_nat (length c) + s_idx st) with true by (symmetry; apply Z.ltb_lt; lia).
  destruct (pre_over _ _ O) as (st' & P & N & _). rewrite P. cbn [bind negb].
  exists st'. split; [reflexivity|]. exists w, None. cbn. rewrite app_nil_r. auto.
Qed.

Lemma over_nrm st s s' : over st s -> (exists b, nrm st s' b) -> False.
Proof. intros (post & _ & _ & _ & Io & _) (b & w & f & (pre & post' & _ & _ & I' & Z' & _) & _). lia. Qed.
(** an inspection, as used by the parser *)
Lemma inspect_live st s m c : live st s m -> solid c ->
  exists st' v s' m', stream_inspect st c = Ok (st', v) /\ live st' s' m' /\ (m' <= m)%nat /\ suffix s' s /\
    ((0 <? v) = true -> (m' < m)%nat /\ (s = c ++ s' \/ over st' s')) /\
    ((0 <? v) = false -> (v = 0 \/ v = -1) /\ s' = s /\ (exists b, nrm st' s b) /\ ((exists b, nrm st s b) -> after c s = None)).
Proof.
  intros [(b & N & ->)|[O ->]] Sc.
  - destruct (inspect_norm true _ _ _ c N Sc) as (st' & v & E & [(V & A & R & b' & N' & L)|[(-> & r & b' & A & L & N')|(-> & -> & L & O)]]).
    + exists st', v, s, (length s + b')%nat. split; [exact E|]. split; [left; eauto|]. split; [lia|]. split; [apply suffix_refl|].
      split; [intros H; apply Z.ltb_lt in H; lia|]. intros _. split; [exact V|]. split; [reflexivity|]. split; [eauto|auto].
    + apply after_Some in A. subst s. exists st', 1, r, (length r + b')%nat. split; [exact E|]. split; [left; eauto|].
      destruct Sc as (_ & Hne & _). rewrite app_length. assert (0 < length c)%nat by (destruct c; [contradiction|simpl; lia]).
      split; [lia|]. split; [apply suffix_app|]. split; [intros _; split; [lia|auto]|discriminate].
    + exists st', 1, s, (length s). split; [exact E|]. split; [right; auto|]. split; [lia|]. split; [apply suffix_refl|].
      split; [intros _; split; [lia|auto]|discriminate].
  - destruct (inspect_over true _ _ c O) as (st' & E & N). exists st', (-1), s, (length s + 0)%nat. split; [exact E|].
    split; [left; eauto|]. split; [lia|]. split; [apply suffix_refl|]. split; [discriminate|]. intros _. split; [auto|]. split; [reflexivity|].
    split; [eauto|]. intros H. contradiction (over_nrm _ _ _ O H).
Qed.

(** ** white space *)
(** the bytes from position [k] on up to the current one are white space; together with
    the [n] bytes that follow they are not more than [t] *)
Definition back (k : Z) (t : nat) (st : stream) (n : nat) : Prop :=
  exists p u r, s_buf st = p ++ u ++ r /\ Z.of_nat (length p) <= k /\ s_idx st = Z.of_nat (length p + length u) /\
    forallb is_ws u = true /\ (length u + n <= t)%nat.
Lemma back_start st w f n : norm st w f -> back (s_idx st) n st n.
Proof. intros (pre & post & K & B & I & _). exists pre, [], (w ++ post). cbn. rewrite B, I. repeat split; lia. Qed.
Lemma back_zero k t n st : 0 <= k -> s_idx st = 0 -> (n <= t)%nat -> back k t st n.
Proof. intros Hk I L. exists [], [], (s_buf st). cbn. auto. Qed.
Lemma back_le k t st n : back k t st n -> (n <= t)%nat.
Proof. intros (p & u & r & B & L & I & W & Lu). lia. Qed.
Lemma back_rested k t st st' n : 0 <= k -> back k t st n -> rested st st' -> back k t st' n.
Proof.
  intros Hk Bk [[E1 E2]|E]; [|apply back_zero; try assumption; eapply back_le; eassumption].
  destruct Bk as (p & u & r & B & L & I & W & Lu). exists p, u, r. rewrite E1, E2. auto.
Qed.
Lemma app_len : forall a b x y : bytes, a ++ x = b ++ y -> length a = length b -> a = b.
Proof.
  induction a as [|c a IH]; intros [|d b] x y E L; simpl in *; try discriminate; [reflexivity|].
  injection E as -> E. f_equal. eapply IH; [exact E|lia].
Qed.
Lemma back_step k t n st w f c : norm st (c :: w) f -> back k t st (S n) -> is_ws c = true -> back k t (set_pos st (s_idx st + 1) 0) n.
Proof.
  intros (pre & post & K & B & I & _) (p & u & r & B' & L & I' & W & Lu) Wc.
  exists p, (u ++ [c]), (w ++ post). cbn [set_pos s_buf s_idx]. rewrite app_length, forallb_app. cbn [forallb length].
  rewrite W, Wc, I'. repeat split; try lia. 
  assert (E : pre = p ++ u).
  { rewrite B in B'. rewrite (app_assoc p u) in B'. apply (app_len _ _ _ _ B'). rewrite app_length. lia. }
  rewrite B, E, <- !app_assoc. reflexivity.
Qed.

Lemma spaces_norm k t : forall fuel st s b remains, 0 <= k -> nrm st s b -> back k t st (length s) -> remains = s_size st - s_idx st -> (length s < fuel)%nat ->
  exists st' b', spaces_loop fuel st remains = Ok st' /\ nrm st' (skip s) b' /\ (b' <= b)%nat /\ back k t st' (length (skip s)) /\
   (skip s = s -> rested st st').
Proof.
  induction fuel as [|fuel IH]; intros st s b remains Hk N Bk Er Lf; [lia|]. cbn [spaces_loop]. subst remains.
  destruct N as (w & f & N & -> & ->). pose proof N as (pre & post & K & B & I & Z & Lb & Ls & L64).
  (* a turn with something in the buffer *)
  assert (Body : forall st0 c w0 f0, norm st0 (c :: w0) f0 -> back k t st0 (length (w ++ txt f)) -> (c :: w0) ++ txt f0 = w ++ txt f -> (open f0 <= open f)%nat -> rested st st0 ->
    exists st' b', (c <- rd (s_buf st0) (s_idx st0) ;;
      if is_ws c then spaces_loop fuel (set_pos st0 (s_idx st0 + 1) 0) (s_size st0 - s_idx st0 - 1) else Ok st0) = Ok st' /\
      nrm st' (skip (w ++ txt f)) b' /\ (b' <= open f)%nat /\ back k t st' (length (skip (w ++ txt f))) /\ (skip (w ++ txt f) = w ++ txt f -> rested st st')).
  { clear N K B I Z Lb Ls L64. intros st0 c w0 f0 N Bk0 E Lo Rs. pose proof N as (pre0 & post0 & K & B & I & Z & Lb & Ls & L64).
    rewrite B. cbn [app]. rewrite rd_app by assumption. cbn [bind]. rewrite <- E. cbn [app skip].
    destruct (is_ws c) eqn:Wc.
    - destruct (IH (set_pos st0 (s_idx st0 + 1) 0) (w0 ++ txt f0) (open f0) (s_size st0 - s_idx st0 - 1)) as (st' & b' & H1 & H2 & H3 & H4 & H5).
      + exact Hk.
      + exists w0, f0. split; [|auto]. apply (norm_advance st0 [c]); [exact N|reflexivity].
      + eapply back_step; [exact N| |exact Wc]. rewrite <- E in Bk0. exact Bk0.
      + cbn [set_pos s_size s_idx]. lia.
      + rewrite <- E in Lf. cbn in Lf. lia.
      + exists st', b'. split; [exact H1|]. split; [exact H2|]. split; [lia|]. split; [exact H4|].
        intros F. exfalso. apply (f_equal (@length _)) in F. pose proof (skip_len (w0 ++ txt f0)). simpl in F. lia.
    - exists st0, (open f0). split; [reflexivity|]. split; [exists (c :: w0), f0; auto|]. rewrite <- E in Bk0. auto. }
  destruct (Z.ltb_spec (s_size st - s_idx st - 1) 0) as [L|L].
  - assert (w = []) by (destruct w; [reflexivity|simpl length in Z; lia]). subst w. cbn [app] in *.
    destruct f as [left|].
    + destruct (pre_norm _ _ _ N) as (st' & more & P & I' & G). rewrite P. cbn [bind].
      destruct G as [(-> & -> & N')|(d & f' & -> & D & -> & N' & _)].
      * exists st', 0%nat. split; [reflexivity|]. split; [exists [], None; auto|]. split; [lia|]. split; [apply back_zero; try assumption; eapply back_le, Bk|].
        intros _. right. exact I'.
      * destruct d as [|c d]; [contradiction|]. cbn [app] in *. apply (Body st' c d (Some f')); auto; [apply back_zero; try assumption; eapply back_le, Bk|right; exact I'].
    + rewrite (pre_none _ _ N). cbn [bind]. exists st, 0%nat. split; [reflexivity|]. split; [exists [], None; auto|]. split; [lia|]. split; [exact Bk|].
      intros _. apply rested_refl.
  - cbn [bind]. destruct w as [|c w]; [simpl length in Z; lia|]. apply (Body st c w f); auto. apply rested_refl.
Qed.
Lemma spaces_live st s m : live st s m ->
  exists st' s' m', consume_spaces st = Ok st' /\ live st' s' m' /\ (m' + length s <= m + length s')%nat /\ suffix s' s /\ (exists b, nrm st' s' b) /\
    ((exists b, nrm st s b) -> s' = skip s).
Proof.
  intros L. pose proof (live_turns _ _ _ L) as Lt. unfold consume_spaces. destruct L as [(b & N & ->)|[O ->]].
  - assert (Ht : (length s < turns st)%nat) by lia.
    assert (I : 0 <= s_idx st /\ back (s_idx st) (length s) st (length s)).
    { destruct N as (w & f & N & _). split; [destruct N as (pre & post & _ & _ & I & _); lia|eapply back_start, N]. }
    destruct I as [I Bk].
    destruct (spaces_norm (s_idx st) (length s) (turns st) st s b _ I N Bk eq_refl Ht) as (st' & b' & E & N' & L & _).
    exists st', (skip s), (length (skip s) + b')%nat. split; [exact E|]. split; [left; eauto|].
    pose proof (skip_len s). split; [lia|]. split; [|split; [eauto|auto]]. destruct (skip_split s) as (a & Ea & _). exists a. exact Ea.
  - destruct (turns st) as [|n]; [lia|]. cbn [spaces_loop]. pose proof O as (post & K & B & Z & Io & _).
    replace (s_size st - s_idx st - 1 <? 0) with true by (symmetry; apply Z.ltb_lt; lia).
    destruct (pre_over _ _ O) as (st' & P & N & _). rewrite P. cbn [bind].
    assert (N0 : nrm st' s 0) by (exists s, None; cbn; rewrite app_nil_r; auto).
    exists st', s, (length s). split; [reflexivity|]. split; [left; exists 0%nat; split; [exact N0|lia]|].
    split; [lia|]. split; [apply suffix_refl|]. split; [eauto|]. intros H. contradiction (over_nrm _ _ _ O H).
Qed.

Lemma spaces_stop st c w f : norm st (c :: w) f -> is_ws c = false -> consume_spaces st = Ok st.
Proof.
  intros N Wc. unfold consume_spaces. assert (Et : exists n, turns st = S n) by (unfold turns; eexists; reflexivity).
  destruct Et as [n ->]. cbn [spaces_loop]. pose proof N as (pre & post & K & B & I & Z & _). simpl length in Z.
  replace (s_size st - s_idx st - 1 <? 0) with false by (symmetry; apply Z.ltb_ge; lia). cbn [bind].
  rewrite B. cbn [app]. rewrite rd_app by assumption. cbn [bind]. rewrite Wc. reflexivity.
Qed.
Lemma peek_live st s m c : live st s m -> solid c ->
  exists st' v b, stream_peek st c = Ok (st', v) /\ nrm st' s b /\ (length s + b <= m)%nat /\
    ((0 <? v) = true -> exists s' m', live (stream_accept st') s' m' /\ (m' < m)%nat /\ suffix s' s /\
       (s = c ++ s' \/ (over (stream_accept st') s' /\ norm st' s (Some []) /\ (length s < length c)%nat))) /\
    ((0 <? v) = false -> (exists b, nrm st s b) -> after c s = None /\ rested st st').
Proof.
  intros [(b & N & ->)|[O ->]] Sc.
  - destruct (inspect_norm false _ _ _ c N Sc) as (st' & v & E & [(V & A & R & b' & N' & L)|[(-> & r & b' & A & L & N' & R & Na)|(-> & -> & L & N' & R & O)]]).
    + exists st', v, b'. split; [exact E|]. split; [exact N'|]. split; [lia|].
      split; [intros H; apply Z.ltb_lt in H; lia|auto].
    + apply after_Some in A. subst s. exists st', 1, b'. split; [exact E|]. split; [exact N'|]. split; [lia|].
      split; [|discriminate]. intros _. exists r, (length r + b')%nat. split; [left; eauto|]. split; [|split; [apply suffix_app|auto]].
      destruct Sc as (_ & Hne & _). rewrite app_length. assert (0 < length c)%nat by (destruct c; [contradiction|simpl; lia]). lia.
    + exists st', 1, 1%nat. split; [exact E|]. split; [exists s, (Some []); cbn; rewrite app_nil_r; auto|]. split; [lia|].
      split; [|discriminate]. intros _. exists s, (length s). split; [right; auto|]. split; [lia|]. split; [apply suffix_refl|auto].
  - destruct (inspect_over false _ _ c O) as (st' & E & N). exists st', (-1), 0%nat. split; [exact E|]. split; [exact N|]. split; [lia|].
    split; [discriminate|]. intros _ H. contradiction (over_nrm _ _ _ O H).
Qed.
Lemma remains_live st s m : live st s m -> exists st' more m', stream_remains st = Ok (st', more) /\ live st' s m' /\ (m' <= m)%nat /\
  (more = true -> exists b, nrm st' s b).
Proof.
  intros L. unfold stream_remains. destruct (Z.leb_spec (s_size st) (s_idx st)) as [H|H].
  - destruct (pre_live _ _ _ L) as (st' & more & m' & P & N & Lm & _). exists st', more, m'. split; [exact P|].
    split; [left; exact N|]. split; [exact Lm|]. intros _. destruct N as (b & N & _). eauto.
  - exists st, true, m. split; [reflexivity|]. split; [exact L|]. split; [lia|]. intros _.
    destruct L as [(b & N & _)|[(post & _ & _ & _ & Io & _) _]]; [eauto|lia].
Qed.

(** ** reading up to a terminator *)
(** where it stopped: [t] is what was read and [c] the terminator *)
Definition stops (chunks : list bytes) (c : bytes) : Prop := exists y it, stop_at chunks (c ++ y) = Some (it, length c).
Definition got (acc ref : bool) (chunks : list bytes) (st' : stream) (s : bytes) (b : nat) (o : option (bytes * Z)) : Prop :=
  exists b', (b' <= b)%nat /\
   ((o = None /\ nrm st' s b') \/
    (exists t c s', s = t ++ c ++ s' /\ c <> [] /\ stops chunks c /\ nrm st' (if acc then s' else c ++ s') b' /\
       ((exists it, o = Some (t, it) /\ (ref = true -> t <> [])) \/ o = None))).

Lemma result_ok acc ref chunks st t0 s0 f n it : norm st (t0 ++ s0) f -> (ref = true -> acc = true) -> (1 <= n <= length s0)%nat ->
  stop_at chunks s0 = Some (it, n) ->
  exists st' o, until_result st acc ref (Z.of_nat (length t0)) (Z.of_nat n) it = Ok (st', o) /\ got acc ref chunks st' (t0 ++ s0 ++ txt f) (open f) o.
Proof.
  intros N Ra Ln St. pose proof N as (pre & post & K & B & I & Z & Lb & Ls & L64). unfold until_result.
  destruct (split_len n s0 ltac:(lia)) as (c & s1 & -> & Lc). subst n. rewrite app_length in *.
  destruct c as [|c0 c]; [simpl in Ln; lia|].
  assert (M : mem_sub (s_buf st) (s_idx st) (Z.of_nat (length t0)) = Ok t0).
  { rewrite B. rewrite <- app_assoc. apply mem_sub_app; [exact I|reflexivity]. }
  rewrite M. cbn [bind].
  (* the buffer after the text was read *)
  assert (W : exists buf', (if ref then wr (s_buf st) (s_idx st + Z.of_nat (length t0)) NUL else Ok (s_buf st)) = Ok buf' /\
     (exists p', length p' = length ((pre ++ t0) ++ c0 :: c) /\ buf' = p' ++ s1 ++ post) /\ (acc = false -> buf' = s_buf st)).
  { destruct ref.
    - replace (s_buf st) with ((pre ++ t0) ++ c0 :: (c ++ s1 ++ post)) by (rewrite B, <- !app_assoc; reflexivity).
      rewrite wr_app by (rewrite app_length; lia). eexists. split; [reflexivity|]. split.
      + exists ((pre ++ t0) ++ NUL :: c). rewrite !app_length. split; [reflexivity|]. rewrite <- !app_assoc. reflexivity.
      + rewrite (Ra eq_refl). discriminate.
    - eexists. split; [reflexivity|]. split; [|auto]. exists ((pre ++ t0) ++ c0 :: c). split; [reflexivity|].
      rewrite B, <- !app_assoc. reflexivity. }
  destruct W as (buf' & W & (p' & Lp & Eb) & Ea). rewrite W. cbn [bind].
  eexists _, _. split; [reflexivity|]. exists (open f). split; [lia|]. right. exists t0, (c0 :: c), (s1 ++ txt f).
  split; [rewrite <- !app_assoc; reflexivity|]. split; [discriminate|]. split; [exists s1, it; exact St|]. split.
  - assert (LB : length buf' = length (s_buf st)).
    { rewrite Eb, B. rewrite !app_length in *. lia. }
    destruct acc.
    + exists s1, f. split; [|auto]. exists p', post. cbn [set_pos set_buf s_kind s_buf s_size s_idx s_bufsize].
      rewrite LB. rewrite !app_length in *. repeat split; try assumption; lia.
    + rewrite (Ea eq_refl) in *. exists ((c0 :: c) ++ s1), f. split; [|split; [rewrite <- app_assoc; reflexivity|reflexivity]].
      exists (pre ++ t0), post. cbn [set_pos set_buf s_kind s_buf s_size s_idx s_bufsize].
      rewrite B in *. rewrite !app_length in *. rewrite <- !app_assoc in *. repeat split; try assumption; try lia.
  - destruct ref; cbn [andb].
    + destruct (Z.eqb_spec (Z.of_nat (length t0)) 0) as [E|E]; [right; reflexivity|]. left. exists it. split; [reflexivity|].
      intros _ ->. apply E. reflexivity.
    + left. exists it. split; [reflexivity|discriminate].
Qed.

Lemma got_open acc ref chunks st' s b b2 o : (b <= b2)%nat -> got acc ref chunks st' s b o -> got acc ref chunks st' s b2 o.
Proof. intros L (b' & Lb & H). exists b'. split; [lia|exact H]. Qed.

Lemma until_norm acc ref chunks : (ref = true -> acc = true) -> Forall good_chunk chunks ->
  forall fuel st t0 s0 f remains again, norm st (t0 ++ s0) f ->
  (again = true -> s0 <> [] /\ remains <= Z.of_nat (length s0) - 1) -> remains <= Z.of_nat (length s0) ->
  (length s0 + 2 * length (txt f) < fuel)%nat ->
  exists st' o, until_loop fuel st chunks acc ref (Z.of_nat (length t0)) remains again = Ok (st', o) /\
    got acc ref chunks st' (t0 ++ s0 ++ txt f) (open f) o.
Proof.
  intros Ra G. induction fuel as [|fuel IH]; intros st t0 s0 f remains again N Ha Hr Lf; [lia|].
  (* one turn with a byte to look at *)
  assert (Body : forall st t0 s0 f remains, norm st (t0 ++ s0) f -> s0 <> [] -> remains <= Z.of_nat (length s0) - 1 ->
    (length s0 + 2 * length (txt f) <= fuel)%nat ->
    exists st' o, (m <- match_at chunks (s_buf st) (s_size st) (s_idx st + Z.of_nat (length t0)) ;;
      match m with
      | Some (it, length) =>
        if (length <? max_length chunks) && (s_idx st + Z.of_nat (Datatypes.length t0) + length =? s_size st) then
          '(st, more) <- prebuffer st ;;
          if (more : bool) then until_loop fuel st chunks acc ref (Z.of_nat (Datatypes.length t0)) remains true
          else until_result st acc ref (Z.of_nat (Datatypes.length t0)) length it
        else until_result st acc ref (Z.of_nat (Datatypes.length t0)) length it
      | None => until_loop fuel st chunks acc ref (Z.of_nat (length t0) + 1) remains false
      end) = Ok (st', o) /\ got acc ref chunks st' (t0 ++ s0 ++ txt f) (open f) o).
  { clear st t0 s0 f remains again N Ha Hr Lf. intros st t0 s0 f remains N Hs Hr Lf.
    pose proof N as (pre & post & K & B & I & Z & Lb & Ls & L64).
    replace (s_buf st) with ((pre ++ t0) ++ s0 ++ post) by (rewrite B, <- !app_assoc; reflexivity).
    replace (s_size st) with (Z.of_nat (length (pre ++ t0)) + Z.of_nat (length s0)) by (rewrite Z, !app_length; lia).
    replace (s_idx st + Z.of_nat (length t0)) with (Z.of_nat (length (pre ++ t0))) by (rewrite I, app_length; lia).
    rewrite match_at_ok by assumption. cbn [bind].
    destruct (stop_at chunks s0) as [[it n]|] eqn:St.
    - pose proof (stop_len _ _ _ _ G St) as Ln.
      assert (Res : exists st' o, until_result st acc ref (Z.of_nat (length t0)) (Z.of_nat n) it = Ok (st', o) /\ got acc ref chunks st' (t0 ++ s0 ++ txt f) (open f) o)
        by (apply result_ok; assumption).
      destruct (_ && _); [|exact Res]. clear Res. destruct f as [left|].
      + destruct (pre_norm _ _ _ N) as (st' & more & P & I' & Gr). rewrite P. cbn [bind].
        destruct Gr as [(-> & -> & N')|(d & f' & -> & D & -> & N' & _)].
        * destruct (result_ok acc ref chunks st' t0 s0 None n it N' Ra Ln St) as (st2 & o & E & Gt).
          exists st2, o. split; [exact E|]. cbn [txt] in *. apply (got_open _ _ _ _ _ 0); [lia|exact Gt].
        * rewrite <- app_assoc in N'. destruct (IH st' t0 (s0 ++ d) (Some f') remains true N') as (st2 & o & E & Gt).
          -- intros _. split; [destruct s0; [contradiction|discriminate]|]. rewrite app_length. lia.
          -- rewrite app_length. lia.
          -- cbn [txt] in *. rewrite app_length in *. destruct d; [contradiction|simpl length in *; lia].
          -- exists st2, o. split; [exact E|]. cbn [txt open] in *. rewrite <- app_assoc in Gt. exact Gt.
      + rewrite (pre_none _ _ N). cbn [bind]. apply result_ok; assumption.
    - destruct s0 as [|c s0]; [contradiction|].
      destruct (IH st (t0 ++ [c]) s0 f remains false) as (st2 & o & E & Gt).
      + rewrite <- app_assoc. exact N.
      + discriminate.
      + simpl length in Hr. lia.
      + simpl length in Lf. lia.
      + exists st2, o. rewrite app_length in E. simpl length in E.
        replace (Z.of_nat (length t0 + 1)) with (Z.of_nat (length t0) + 1) in E by lia. split; [exact E|].
        rewrite <- app_assoc in Gt. exact Gt. }
  cbn [until_loop]. destruct again.
  - cbn [bind]. destruct (Ha eq_refl) as [Hs Hr']. apply Body; try assumption. lia.
  - destruct (Z.ltb_spec (remains - 1) 0) as [L|L].
    + pose proof N as (pre & post & K & B & I & Z & Lb & Ls & L64). rewrite K. destruct f as [left|].
      * destruct (pre_norm _ _ _ N) as (st' & more & P & I' & Gr). rewrite P. cbn [bind].
        destruct Gr as [(-> & -> & N')|(d & f' & -> & D & -> & N' & _)].
        -- exists st', None. split; [reflexivity|]. exists 0%nat. split; [lia|]. left. split; [reflexivity|].
           exists (t0 ++ s0), None. cbn [txt open]. rewrite <- app_assoc. auto.
        -- assert (Sz : s_size st' = Z.of_nat (length t0) + Z.of_nat (length s0) + Z.of_nat (length d)).
           { destruct N' as (pre' & post' & _ & _ & I2 & Z2 & _). rewrite !app_length in Z2. lia. }
           assert (Ld : (1 <= length d)%nat) by (destruct d; [contradiction|simpl; lia]).
           cbn [txt] in Lf. rewrite app_length in Lf. rewrite <- app_assoc in N'. cbn [txt].
           assert (T : t0 = [] \/ exists t1 y, t0 = t1 ++ [y]) by (destruct t0 as [|x t0]; [left; reflexivity|right; destruct (exists_last (l := x :: t0) ltac:(discriminate)) as (t1 & y & E1); eauto]).
           destruct T as [-> |(t1 & y & ->)].
           ++ change (Z.of_nat (length (@nil ascii))) with 0 in *. change (0 <? 0) with false. cbv iota.
              destruct (Body st' [] (s0 ++ d) (Some f') (s_size st' - 0 - 1)) as (st2 & o & E & Gt).
              ** exact N'.
              ** destruct s0; [exact D|discriminate].
              ** rewrite app_length. lia.
              ** cbn [txt]. rewrite app_length. lia.
              ** exists st2, o. split; [exact E|]. cbn [txt open] in *. rewrite <- app_assoc in Gt. exact Gt.
           ++ rewrite app_length in *. cbn [length] in *.
              replace (0 <? Z.of_nat (length t1 + 1)) with true by (symmetry; apply Z.ltb_lt; lia).
              replace (Z.of_nat (length t1 + 1) - 1) with (Z.of_nat (length t1)) by lia.
              destruct (Body st' t1 (y :: s0 ++ d) (Some f') (s_size st' - Z.of_nat (length t1 + 1) - 1)) as (st2 & o & E & Gt).
              ** rewrite <- app_assoc in N'. exact N'.
              ** discriminate.
              ** simpl length. rewrite app_length. lia.
              ** cbn [txt]. simpl length. rewrite app_length. lia.
              ** exists st2, o. split; [exact E|]. cbn [txt open app] in *. rewrite <- !app_assoc in *. exact Gt.
      * rewrite (pre_none _ _ N). cbn [bind]. exists st, None. split; [reflexivity|]. exists 0%nat. split; [lia|]. left. split; [reflexivity|].
        exists (t0 ++ s0), None. cbn [txt open]. rewrite <- app_assoc. auto.
    + cbn [bind]. apply Body; [exact N| |lia|lia]. destruct s0; [simpl length in Hr; lia|discriminate].
Qed.

Lemma until_nrm acc ref chunks st s b : (ref = true -> acc = true) -> Forall good_chunk chunks -> nrm st s b ->
  exists st' o, until_loop (turns st) st chunks acc ref 0 (s_size st - s_idx st) false = Ok (st', o) /\ got acc ref chunks st' s b o.
Proof.
  intros Ra G (w & f & N & -> & ->). pose proof (norm_turns _ _ _ N) as Lt.
  destruct (until_norm acc ref chunks Ra G (turns st) st [] w f (s_size st - s_idx st) false) as (st' & o & E & H).
  - exact N.
  - discriminate.
  - destruct N as (pre & post & _ & _ & I & Z & _). lia.
  - lia.
  - exists st', o. split; [exact E|exact H].
Qed.
Lemma until_over acc ref chunks st s : over st s ->
  exists st', until_loop (turns st) st chunks acc ref 0 (s_size st - s_idx st) false = Ok (st', None) /\ nrm st' s 0.
Proof.
  intros O. pose proof O as (post & K & B & Z & Io & Lb & Ls & L64).
  assert (Et : exists n, turns st = S n) by (unfold turns; eexists; reflexivity). destruct Et as [n ->]. cbn [until_loop].
  replace (s_size st - s_idx st - 1 <? 0) with true by (symmetry; apply Z.ltb_lt; lia). rewrite K.
  destruct (pre_over _ _ O) as (st' & P & N & _). rewrite P. cbn [bind]. exists st'. split; [reflexivity|].
  exists s, None. cbn. rewrite app_nil_r. auto.
Qed.
(** as used by the parser: what is found is taken *)
Lemma until_live ref chunks st s m : Forall good_chunk chunks -> live st s m ->
  exists st' o, until_loop (turns st) st chunks true ref 0 (s_size st - s_idx st) false = Ok (st', o) /\
    exists s' m', live st' s' m' /\ (m' <= m)%nat /\ suffix s' s /\
      forall t it, o = Some (t, it) -> (m' < m)%nat /\ (exists b, nrm st s b) /\ (ref = true -> t <> []) /\ exists c, s = t ++ c ++ s' /\ stops chunks c.
Proof.
  intros G [(b & N & ->)|[O ->]].
  - destruct (until_nrm true ref chunks st s b ltac:(auto) G N) as (st' & o & E & b' & Lb & [(-> & N')|(t & c & s' & -> & Hc & Hs & N' & Ho)]).
    + exists st', None. split; [exact E|]. exists s, (length s + b')%nat. split; [left; eauto|]. split; [lia|]. split; [apply suffix_refl|discriminate].
    + exists st', o. split; [exact E|]. exists s', (length s' + b')%nat. split; [left; eauto|].
      rewrite !app_length. assert (1 <= length c)%nat by (destruct c; [contradiction|simpl; lia]). split; [lia|].
      split; [rewrite app_assoc; apply suffix_app|]. intros t' it' Eo.
      destruct Ho as [(it & -> & Hr)| ->]; [|discriminate]. injection Eo as <- <-. split; [lia|]. split; [eauto|]. split; [exact Hr|]. eauto.
  - destruct (until_over true ref chunks st s O) as (st' & E & N'). exists st', None. split; [exact E|].
    exists s, (length s + 0)%nat. split; [left; eauto|]. split; [lia|]. split; [apply suffix_refl|discriminate].
Qed.
