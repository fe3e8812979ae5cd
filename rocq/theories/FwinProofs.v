(** The buffer of a file stream has a part of the file (C60). *)
From Coq Require Import Permutation Lia.
From Verif Require Import Prelude StrModel StrSpec StrProofs AttrModel TreeModel StreamModel StreamProofs ParseModel.
From Verif Require Import RepModel RepSpec FrepSpec RepProofs RepProofs2 RepProofs3.
Open Scope Z_scope.
Local Arguments Z.of_nat : simpl never.
Local Arguments Z.to_nat : simpl never.
Local Arguments Z.add : simpl never.
Local Arguments Z.sub : simpl never.
Local Arguments Z.eqb : simpl never.
Local Arguments Z.ltb : simpl never.
Local Arguments Z.leb : simpl never.

(** the buffer has a part of the file, some bytes replaced by NUL; what was not read follows it *)
Definition window (content : bytes) (st : stream) : Prop :=
  exists f a t r tail, s_kind st = FD f /\ match f with Some l => r = l | None => True end /\
    content = a ++ t ++ r /\ s_size st = Z.of_nat (length t) /\ masked (s_buf st) (t ++ tail).
Lemma masked_left b t tail : masked b (t ++ tail) -> masked (firstn (length t) b) t.
Proof. intros M. apply (masked_first (length t)) in M. rewrite firstn_app, Nat.sub_diag, firstn_all in M. cbn [firstn] in M. rewrite app_nil_r in M. exact M. Qed.
Lemma masked_more b t : masked (firstn (length t) b) t -> masked b (t ++ skipn (length t) b).
Proof. intros M. rewrite <- (firstn_skipn (length t) b) at 1. apply Forall2_app; [exact M|apply masked_refl]. Qed.
Lemma read_window content a t b bs left prev st' more :
  content = a ++ t ++ left -> masked (firstn (length t) b) t ->
  (b <- memcpy_to b (Z.of_nat (length t)) (firstn (Z.to_nat (bs - Z.of_nat (length t))) left) ;;
    match firstn (Z.to_nat (bs - Z.of_nat (length t))) left with
    | [] => Ok (Stream (FD None) b bs (Z.of_nat (length t)) 0 prev, false)
    | _ => Ok (Stream (FD (Some (skipn (length (firstn (Z.to_nat (bs - Z.of_nat (length t))) left)) left))) b bs
                 (Z.of_nat (length t) + Z.of_nat (length (firstn (Z.to_nat (bs - Z.of_nat (length t))) left))) 0 prev, true)
    end) = Ok (st', more) -> window content st'.
Proof.
  intros E M. set (data := firstn _ left).
  assert (D : left = data ++ skipn (length data) left).
  { unfold data. rewrite firstn_length. destruct (Nat.le_gt_cases (length left) (Z.to_nat (bs - Z.of_nat (length t)))) as [L|L].
    - rewrite Nat.min_r, skipn_all, app_nil_r, firstn_all2 by lia. reflexivity.
    - rewrite Nat.min_l by lia. symmetry. apply firstn_skipn. }
  clearbody data. unfold memcpy_to. destruct (_ || _); cbn [bind]; [discriminate|]. rewrite Nat2Z.id.
  set (rest := skipn _ b). clearbody rest. destruct data as [|x data]; intros H; injection H as <- _.
  - eexists None, a, t, left, _. cbn. split; [reflexivity|]. split; trivial. split; [exact E|]. split; [reflexivity|].
    apply Forall2_app; [exact M|apply masked_refl].
  - eexists (Some _), a, (t ++ x :: data), _, rest. cbn [s_kind s_size s_buf]. split; [reflexivity|]. split; [reflexivity|]. split.
    { rewrite E. rewrite D at 1. now rewrite <- app_assoc. }
    split; [rewrite app_length; cbn [length]; lia|]. rewrite <- app_assoc. apply Forall2_app; [exact M|apply masked_refl].
Qed.
Lemma pre_window content st st' more : window content st -> prebuffer st = Ok (st', more) -> window content st'.
Proof.
  intros (f & a & t & r & tail & K & Er & E & Z & M) H. unfold prebuffer in H. rewrite K in H. destruct f as [left|].
  2:{ injection H as <- _. exists None, a, t, r, tail. auto. }
  subst r. cbv zeta in H. rewrite Z in H. pose proof (masked_len _ _ M) as Lm. rewrite app_length in Lm.
  destruct (Z.ltb_spec 0 (s_idx st)) as [L1|L1]; [destruct (Z.ltb_spec 0 (Z.of_nat (length t) - s_idx st)) as [L2|L2]|]; cbn [andb] in H.
  - destruct (mem_sub _ _ _) as [tmp| |] eqn:Sb; cbn [bind] in H; try discriminate.
    destruct (memcpy_to (s_buf st) 0 tmp) as [b| |] eqn:Cp; cbn [bind] in H; try discriminate.
    unfold mem_sub in Sb. destruct (_ || _); [discriminate|]. injection Sb as <-.
    unfold memcpy_to in Cp. destruct (_ || _); [discriminate|]. injection Cp as <-.
    set (k := Z.to_nat (s_idx st)) in *. assert (Lk : (k <= length t)%nat) by (unfold k; lia).
    replace (Z.of_nat (length t) - s_idx st) with (Z.of_nat (length (skipn k t))) in H by (rewrite skipn_length; unfold k; lia).
    refine (read_window content (a ++ firstn k t) (skipn k t) _ _ _ _ _ _ _ _ H).
    + rewrite E, <- app_assoc. f_equal. rewrite app_assoc, firstn_skipn. reflexivity.
    + cbn [firstn app]. replace (Z.to_nat (Z.of_nat (length (skipn k t)))) with (length (skipn k t)) by lia.
      change (Z.to_nat 0) with 0%nat. cbn [firstn app].
      assert (Q : masked (firstn (length (skipn k t)) (skipn k (s_buf st))) (skipn k t)).
      { apply (masked_left _ _ tail). replace (skipn k t ++ tail) with (skipn k (t ++ tail)); [now apply masked_skip|].
        rewrite skipn_app. replace (k - length t)%nat with 0%nat by lia. reflexivity. }
      set (z := firstn _ _) in *. pose proof (masked_len _ _ Q) as Lz. rewrite <- Lz at 1. rewrite firstn_app, Nat.sub_diag, firstn_all. cbn [firstn].
      rewrite app_nil_r. exact Q.
  - destruct ((_ =? s_bufsize st) && _); cbn [bind] in H.
    + refine (read_window content a t _ _ _ _ _ _ E _ H). rewrite firstn_app. replace (length t - length (s_buf st))%nat with 0%nat by lia.
      cbn [firstn]. rewrite app_nil_r. exact (masked_left _ _ _ M).
    + destruct (Z.of_nat (length t) =? s_idx st).
      * refine (read_window content (a ++ t) [] _ _ _ _ _ _ _ _ H); [rewrite E, <- app_assoc; reflexivity|constructor].
      * exact (read_window content a t _ _ _ _ _ _ E (masked_left _ _ _ M) H).
  - destruct ((_ =? s_bufsize st) && _); cbn [bind] in H.
    + refine (read_window content a t _ _ _ _ _ _ E _ H). rewrite firstn_app. replace (length t - length (s_buf st))%nat with 0%nat by lia.
      cbn [firstn]. rewrite app_nil_r. exact (masked_left _ _ _ M).
    + destruct (Z.of_nat (length t) =? s_idx st).
      * refine (read_window content (a ++ t) [] _ _ _ _ _ _ _ _ H); [rewrite E, <- app_assoc; reflexivity|constructor].
      * exact (read_window content a t _ _ _ _ _ _ E (masked_left _ _ _ M) H).
Qed.
Lemma inspect_window content acc st c st' v : window content st -> common_inspect acc st c = Ok (st', v) -> window content st'.
Proof.
  intros W H. unfold common_inspect in H. cbv zeta in H. apply RepProofs3.bind_inv in H as ([st1 out] & H1 & H).
  assert (W1 : window content st1).
  { destruct (_ <? _) in H1; [|injection H1 as <- _; exact W]. apply RepProofs3.bind_inv in H1 as ([st2 more] & P & H1). injection H1 as <- _.
    exact (pre_window _ _ _ _ W P). }
  destruct out; [injection H as <- _; exact W1|]. apply RepProofs3.bind_inv in H as (p & _ & H). apply RepProofs3.bind_inv in H as (r & _ & H).
  destruct r; injection H as <- _; [|exact W1]. destruct acc; exact W1.
Qed.
Lemma remains_window content st st' v : window content st -> stream_remains st = Ok (st', v) -> window content st'.
Proof. intros W H. unfold stream_remains in H. destruct (_ <=? _); [exact (pre_window _ _ _ _ W H)|injection H as <- _; exact W]. Qed.
Lemma spaces_window content st st' : window content st -> consume_spaces st = Ok st' -> window content st'.
Proof.
  unfold consume_spaces. generalize (turns st), (s_size st - s_idx st). intros n. revert st. induction n as [|n IH]; intros st z W H; [discriminate|].
  cbn [spaces_loop] in H. cbv zeta in H. apply RepProofs3.bind_inv in H as ([[st1 go] z1] & H1 & H).
  assert (W1 : window content st1).
  { destruct (_ <? _) in H1; [|injection H1 as <- _; exact W]. apply RepProofs3.bind_inv in H1 as ([st2 more] & P & H1). injection H1 as <- _.
    exact (pre_window _ _ _ _ W P). }
  destruct go; [|injection H as <-; exact W1]. apply RepProofs3.bind_inv in H as (c & _ & H). destruct (is_ws c); [|injection H as <-; exact W1].
  exact (IH (set_pos st1 (s_idx st1 + 1) 0) _ W1 H).
Qed.
Lemma result_window content st a r i n t st' o : window content st -> until_result st a r i n t = Ok (st', o) -> window content st'.
Proof.
  intros W H. unfold until_result in H. apply RepProofs3.bind_inv in H as (x & _ & H). apply RepProofs3.bind_inv in H as (b & Hb & H). injection H as <- _.
  destruct W as (f & p & q & rr & tail & K & Er & E & Z & M). exists f, p, q, rr, tail. cbn. repeat (split; [assumption|]).
  destruct r; [exact (masked_wr _ _ _ _ M Hb)|injection Hb as <-; exact M].
Qed.
Lemma until_window content : forall f st c a r i z g st' o, window content st -> until_loop f st c a r i z g = Ok (st', o) -> window content st'.
Proof.
  induction f as [|f IH]; intros st c a r i z g st' o W H; [discriminate|]. cbn [until_loop] in H. cbv zeta in H.
  apply RepProofs3.bind_inv in H as ([[[st1 go] i1] z1] & H1 & H).
  assert (W1 : window content st1).
  { destruct g; [injection H1 as <- _; exact W|]. destruct (_ <? _) in H1; [|injection H1 as <- _; exact W].
    destruct (s_kind st); [injection H1 as <- _; exact W| |];
      (apply RepProofs3.bind_inv in H1 as ([st2 more] & P & H1); injection H1 as <- _; exact (pre_window _ _ _ _ W P)). }
  clear H1. destruct go; [|injection H as <- _; trivial].
  destruct (match_at _ _ _ _) as [[[it n]|]| |]; cbn [bind] in H; try discriminate.
  - destruct (_ && _).
    + destruct (prebuffer st1) as [[st2 more]| |] eqn:P; cbn [bind] in H; try discriminate.
      apply (pre_window _ _ _ _ W1) in P. destruct more; [exact (IH _ _ _ _ _ _ _ _ _ P H)|exact (result_window _ _ _ _ _ _ _ _ _ P H)].
    + exact (result_window _ _ _ _ _ _ _ _ _ W1 H).
  - exact (IH _ _ _ _ _ _ _ _ _ W1 H).
Qed.
Lemma file_window content st : stream_file content = Ok st -> window content st.
Proof.
  unfold stream_file. intros H. apply RepProofs3.bind_inv in H as ([st1 more] & P & H). injection H as <-.
  eapply pre_window; [|exact P]. eexists (Some content), [], [], content, _. cbn. repeat (split; [reflexivity|]). apply masked_refl.
Qed.

(** ** what is told *)
Lemma cut_begins content st : window content st ->
  exists off, 0 <= off /\ 0 <= s_size st /\ off + s_size st <= Z.of_nat (length content) /\
    forall x n t, mem_sub (s_buf st) x n = Ok t -> x + n <= s_size st -> begins content (off + x) (off + (x + n)) (cstr t).
Proof.
  intros (f & a & w & r & tail & _ & _ & E & Z & M). exists (Z.of_nat (length a)). split; [lia|]. split; [lia|]. split; [rewrite E, !app_length; lia|].
  intros x n t H L. unfold mem_sub in H. destruct (_ || _) eqn:C; [discriminate|]. injection H as <-.
  rewrite !orb_false_iff, !Z.ltb_ge in C.
  unfold begins. replace (Z.of_nat (length a) + (x + n) - (Z.of_nat (length a) + x)) with n by lia.
  replace (Z.to_nat (Z.of_nat (length a) + x)) with (length a + Z.to_nat x)%nat by lia.
  apply masked_cstr.
  replace (firstn (Z.to_nat n) (skipn (length a + Z.to_nat x) content)) with (firstn (Z.to_nat n) (skipn (Z.to_nat x) (w ++ tail))).
  { apply masked_first, masked_skip. exact M. }
  rewrite E. rewrite (skipn_app _ a). rewrite (skipn_all2 a) by lia. cbn [app]. replace (length a + Z.to_nat x - length a)%nat with (Z.to_nat x) by lia.
  rewrite !skipn_app, !firstn_app, !skipn_length. replace (Z.to_nat n - (length w - Z.to_nat x))%nat with 0%nat by lia. cbn [firstn]. reflexivity.
Qed.
Definition told_in (content : bytes) (m : book) : Prop := Forall (place_within content) (reports m).
Lemma new_window content w b p m e st code text m' : idle w b p m e -> window content st -> 0 <= s_idx st <= s_size st + 10 ->
  error_new m st code text = Ok m' -> told_in content m'.
Proof.
  intros H W I E. destruct (cut_begins _ _ W) as (off & O1 & Sz & O2 & Cut). unfold error_new in E. unfold told_in. pose proof (i_reports _ _ _ _ _ H) as R0.
  destruct (wanted m) eqn:Wa; [|injection E as <-; rewrite R0; constructor].
  unfold take in E. apply idle_told, told_take in H. cbn [take fst] in H.
  set (m1 := with_live m _ _) in *. assert (R1 : reports m1 = []) by exact R0. clearbody m1. clear R0 Wa.
  apply RepProofs3.bind_inv in E as ([m2 fo] & Ef & E). apply RepProofs3.bind_inv in E as ([m3 ne] & En & E). injection E as <-. cbn [reports with_live with_reports].
  assert (Bf : reports m2 = [] /\ told w p m2 (next m :: e) /\ begins content (off + s_idx st) (off + Z.min (s_size st) (s_idx st + 10)) fo).
  { unfold get_following in Ef. rewrite (told_touch _ _ _ _ H) in Ef. cbn [bind] in Ef.
    destruct (Z.leb_spec (s_size st) (s_idx st)) as [C|C].
    { injection Ef as <- <-. split; trivial. split; trivial. eexists; reflexivity. }
    cbv zeta in Ef. destruct (drop_follow _ _ _ _ H) as (x & R & H1 & Re). rewrite R in Ef. cbn [bind] in Ef. unfold take in Ef.
    apply RepProofs3.bind_inv in Ef as (t & Mt & Ef). injection Ef as <- <-. cbn [reports with_follow with_live]. split; [congruence|]. split.
    - apply told_take in H1. destruct H1 as [E L Kk W0 O]. constructor; trivial. cbn in *. unfold blocks_of in *. cbn in *.
      eapply exact_perm; [|exact E]. perm.
    - assert (Q : exists k, mem_sub (s_buf st) (s_idx st) k = Ok t /\ s_idx st + k = Z.min (s_size st) (s_idx st + 10)).
      { eexists; split; [exact Mt|]. destruct (Z.ltb_spec (s_size st) (10 + s_idx st)); lia. }
      destruct Q as (k & Mk & Qk). rewrite <- Qk. apply Cut; [exact Mk|lia]. }
  destruct Bf as (R2 & H2 & Bf).
  assert (Bn : reports m3 = [] /\ exists a c, 0 <= a <= s_idx st /\ a <= c <= s_size st /\ (a = 0 \/ 10 <= s_idx st - a) /\ (c = s_size st \/ 10 <= c - s_idx st) /\ begins content (off + a) (off + c) ne).
  { unfold get_near_to in En. rewrite (told_touch _ _ _ _ H2) in En. cbn [bind] in En. cbv zeta in En.
    destruct (drop_near _ _ _ _ H2) as (x & R & H1 & Re). rewrite R in En. cbn [bind] in En. unfold take in En.
    apply RepProofs3.bind_inv in En as (t & Mt & En). injection En as <- <-. cbn [reports with_near with_live]. split; [congruence|].
    set (a := if s_idx st - 10 <=? 0 then 0 else s_idx st - 10) in *.
    set (n := if s_size st - 1 <=? s_idx st + 10 then s_size st - a else s_idx st + 10 - a) in *.
    exists a, (a + n). assert (Qa : 0 <= a <= s_idx st /\ a <= s_size st /\ (a = 0 \/ 10 <= s_idx st - a)) by (unfold a; destruct (Z.leb_spec (s_idx st - 10) 0); lia).
    assert (Qn : 0 <= n /\ a + n <= s_size st /\ (a + n = s_size st \/ 10 <= a + n - s_idx st)) by (unfold n; destruct (Z.leb_spec (s_size st - 1) (s_idx st + 10)); lia).
    split; [lia|]. split; [lia|]. split; [lia|]. split; [lia|]. apply Cut; [exact Mt|lia]. }
  destruct Bn as (R3 & Bn). rewrite R3. constructor; [|constructor].
  exists off, (s_size st), (s_idx st), ne, fo. split; [reflexivity|]. repeat (split; [lia|]). split; [exact Bn|exact Bf].
Qed.
Lemma report_window content w b p m e st code text m' : idle w b p m e -> window content st -> 0 <= s_idx st <= s_size st + 10 ->
  error_report m st code text = Ok m' -> told_in content m'.
Proof.
  intros H W I E. destruct (cut_begins _ _ W) as (off & O1 & Sz & O2 & Cut). unfold error_report in E. unfold told_in. pose proof (i_reports _ _ _ _ _ H) as R0.
  apply idle_told in H. apply RepProofs3.bind_inv in E as ([m3 ne] & En & E).
  assert (Bn : reports m3 = [] /\ exists a c, 0 <= a <= s_idx st /\ a <= c <= s_size st /\ (a = 0 \/ 10 <= s_idx st - a) /\ (c = s_size st \/ 10 <= c - s_idx st) /\ begins content (off + a) (off + c) ne).
  { unfold get_near_to in En. rewrite (told_touch _ _ _ _ H) in En. cbn [bind] in En. cbv zeta in En.
    destruct (drop_near _ _ _ _ H) as (x & R & H1 & Re). rewrite R in En. cbn [bind] in En. unfold take in En.
    apply RepProofs3.bind_inv in En as (t & Mt & En). injection En as <- <-. cbn [reports with_near with_live]. split; [congruence|].
    set (a := if s_idx st - 100 <=? 0 then 0 else s_idx st - 100) in *.
    set (n := if s_size st - 1 <=? s_idx st + 100 then s_size st - a else s_idx st + 100 - a) in *.
    exists a, (a + n). assert (Qa : 0 <= a <= s_idx st /\ a <= s_size st /\ (a = 0 \/ 10 <= s_idx st - a)) by (unfold a; destruct (Z.leb_spec (s_idx st - 100) 0); lia).
    assert (Qn : 0 <= n /\ a + n <= s_size st /\ (a + n = s_size st \/ 10 <= a + n - s_idx st)) by (unfold n; destruct (Z.leb_spec (s_size st - 1) (s_idx st + 100)); lia).
    split; [lia|]. split; [lia|]. split; [lia|]. split; [lia|]. apply Cut; [exact Mt|lia]. }
  destruct Bn as (R3 & Bn). destruct (wanted m3); injection E as <-; [|rewrite R3; constructor]. cbn [reports with_live with_reports]. rewrite R3.
  constructor; [|constructor].
  exists off, (s_size st), (s_idx st), ne, []. split; [reflexivity|]. repeat (split; [lia|]). split; [exact Bn|eexists; reflexivity].
Qed.
