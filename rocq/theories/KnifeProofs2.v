(** The header written: its lines, and what a C compiler reads in it. *)
From Verif Require Import Prelude StrModel StrSpec StrProofs StreamModel XmlSpec DtdModel DtdDocModel LoadSpec KnifeModel KnifeSpec KnifeProofs.
Open Scope nat_scope.
Open Scope list_scope.
Local Arguments Z.of_nat : simpl never.
Local Arguments Z.to_nat : simpl never.
Local Arguments Z.ltb : simpl never.

(** ** the lines *)
Fixpoint pieces (s : bytes) : list bytes :=
  match s with
  | [] => [[]]
  | c :: r => if Ascii.eqb LF c then [] :: pieces r else match pieces r with p :: ps => (c :: p) :: ps | [] => [[c]] end
  end.
Lemma pieces_app t u : no_lf t -> pieces (t ++ LF :: u) = t :: pieces u.
Proof.
  induction t as [|c t IH]; intros N; [reflexivity|]. cbn [app pieces].
  destruct (Ascii.eqb_spec LF c) as [E|E]; [destruct N; left; auto|]. rewrite IH; [reflexivity|]. intros H. apply N. right. exact H.
Qed.
Lemma pieces_none s : no_lf s -> pieces s = [s].
Proof.
  induction s as [|c s IH]; intros N; [reflexivity|]. cbn [pieces].
  destruct (Ascii.eqb_spec LF c) as [E|E]; [destruct N; left; auto|]. rewrite IH; [reflexivity|]. intros H. apply N. right. exact H.
Qed.
Inductive reads : stream -> list bytes -> Prop :=
| reads_last st st' e : get_until_zero st true [[LF]] = Ok (st', Some (e, (-2)%Z)) -> reads st [e]
| reads_more st st' t ls : get_until_zero st true [[LF]] = Ok (st', Some (t, 0%Z)) -> reads st' ls -> reads st (t :: ls).

Lemma reads_ok n : forall st win left, length win + length left <= n -> gmem st win left ->
  exists b, (b = true -> win ++ left <> []) /\ reads st (pieces (eff b (win ++ left))) /\ (left = [] -> b = false) /\
    length (pieces (eff b (win ++ left))) <= S n.
Proof.
  induction n as [n IH] using lt_wf_ind. intros st win left Ln M.
  destruct (cut win) as [[t u]|] eqn:C.
  - apply cut_some in C. destruct C as [E N]. destruct (get_line_near st win left t u M E N) as (st' & G & M').
    assert (Lw : length win = length t + S (length u)) by (rewrite E, app_length; reflexivity).
    destruct (IH (length u + length left) ltac:(lia) st' u left ltac:(lia) M') as (b & Q1 & Q2 & Q3 & Q4).
    assert (Ee : eff b (win ++ left) = t ++ LF :: eff b (u ++ left)).
    { rewrite E, <- app_assoc. destruct b; cbn [eff]; [|reflexivity]. rewrite removelast_app by discriminate. f_equal. cbn [app].
      specialize (Q1 eq_refl). destruct (u ++ left); [congruence|reflexivity]. }
    exists b. split; [intros _ F; rewrite E in F; destruct t; discriminate|]. rewrite Ee, pieces_app by exact N.
    split; [eapply reads_more; eassumption|]. split; [exact Q3|]. cbn [length]. lia.
  - apply cut_no in C. destruct (get_line st win left M) as (b & L & Q1 & Q2 & Q3 & Q4). unfold line_of in L.
    destruct (cut (eff b (win ++ left))) as [[t v]|] eqn:Ce.
    + destruct L as (st' & win' & left' & G & E & M'). assert (N := Ce). apply cut_some in N. destruct N as [_ N].
      assert (Ls : length win + length left = length t + S (length win' + length left')).
      { rewrite <- app_length, E, app_length. cbn [length]. rewrite app_length. reflexivity. }
      destruct (IH (length win' + length left') ltac:(lia) st' win' left' ltac:(lia) M') as (b' & P1 & P2 & P3 & P4).
      assert (Ee : eff b' (win ++ left) = t ++ LF :: eff b' (win' ++ left')).
      { rewrite E. destruct b'; cbn [eff]; [|reflexivity]. rewrite removelast_app by discriminate. f_equal.
        specialize (P1 eq_refl). destruct (win' ++ left'); [congruence|reflexivity]. }
      exists b'. split; [intros _ F; rewrite E in F; destruct t; discriminate|]. rewrite Ee, pieces_app by exact N.
      split; [eapply reads_more; eassumption|]. split; [|cbn [length]; lia].
      intros F. exfalso. rewrite F, app_nil_r in E. apply C. rewrite E. apply in_or_app. right. left. reflexivity.
    + destruct L as (st' & G). apply cut_no in Ce. exists b. split; [exact Q1|]. rewrite pieces_none by exact Ce.
      split; [eapply reads_last, G|]. split; [intros F; apply Q3; auto|]. cbn [length]. lia.
Qed.
(** the last line goes beyond the buffer: its last byte is lost *)
Lemma reads_lost n : forall st a w left, length a <= n -> gmem st (a ++ w) left -> (a = [] \/ exists a', a = a' ++ [LF]) -> no_lf w -> w <> [] ->
  no_lf left -> left <> [] -> reads st (pieces (removelast (a ++ w ++ left))).
Proof.
  induction n as [n IH] using lt_wf_ind. intros st a w left Ln M Ha Nw Hw Nl Hl.
  destruct (cut a) as [[t u]|] eqn:C.
  - apply cut_some in C. destruct C as [E N]. subst a.
    destruct (get_line_near st ((t ++ LF :: u) ++ w) left t (u ++ w) M ltac:(rewrite <- app_assoc; reflexivity) N) as (st' & G & M').
    assert (Ee : removelast ((t ++ LF :: u) ++ w ++ left) = t ++ LF :: removelast (u ++ w ++ left)).
    { rewrite <- app_assoc. rewrite removelast_app by discriminate. f_equal. cbn [app].
      destruct (u ++ w ++ left) eqn:F; [|reflexivity]. destruct u; [|discriminate]. destruct w; [congruence|discriminate]. }
    rewrite Ee, pieces_app by exact N. eapply reads_more; [exact G|].
    rewrite app_length in Ln. cbn [length] in Ln. apply (IH (length u)); auto; try lia.
    destruct Ha as [F|(a' & F)]; [destruct t; discriminate|].
    destruct u as [|c u]; [left; reflexivity|right].
    destruct (@exists_last _ (c :: u) ltac:(discriminate)) as (v & y & Ev). rewrite Ev in F |- *.
    exists v. replace (t ++ LF :: v ++ [y]) with ((t ++ LF :: v) ++ [y]) in F by (rewrite <- app_assoc; reflexivity).
    apply app_inj_tail in F. destruct F as [_ ->]. reflexivity.
  - assert (a = []).
    { destruct Ha as [->|(a' & ->)]; [reflexivity|]. apply cut_no in C. destruct C. apply in_or_app. right. left. reflexivity. }
    subst a. cbn [app] in *. destruct (get_line st w left M) as (b & L & Q1 & Q2 & Q3 & Q4).
    rewrite (Q4 eq_refl Hw Hl Nw) in L. cbn [eff] in L. unfold line_of in L.
    assert (Ns : no_lf (removelast (w ++ left))).
    { intros F. assert (In LF (w ++ left)).
      { destruct (@exists_last _ (w ++ left) ltac:(destruct w; [congruence|discriminate])) as (v & y & Ev). rewrite Ev in F |- *.
        rewrite removelast_last in F. apply in_or_app. left. exact F. }
      apply in_app_iff in H. destruct H; [apply Nw, H|apply Nl, H]. }
    rewrite cut_none in L by exact Ns. destruct L as (st' & G). rewrite pieces_none by exact Ns. eapply reads_last, G.
Qed.

(** ** the loops of the tool *)
Definition widest (m : Z) (ls : list bytes) : Z := fold_left (fun m l => let n := Z.of_nat (length (cstr l)) in if (m <? n)%Z then n else m) ls m.
Lemma longest_ok st ls : reads st ls -> forall fuel m, length ls <= fuel -> longest fuel st m = Ok (widest m ls).
Proof.
  induction 1 as [st st' e G|st st' t ls G R IH]; intros fuel m L; (destruct fuel as [|fuel]; [cbn in L; lia|]); cbn [longest]; rewrite G; cbn [bind].
  - reflexivity.
  - change ((0 =? -2)%Z) with false. cbv iota. rewrite IH by (cbn in L; lia). reflexivity.
Qed.
Definition shown_line (l : bytes) : bytes := map shown_char (cstr l).
Lemma write_ok st ls : reads st ls -> forall fuel w out, length ls <= fuel ->
  write_lines fuel st w out = Ok (out ++ flat_map (fun l => put_line w (shown_line l)) ls).
Proof.
  induction 1 as [st st' e G|st st' t ls G R IH]; intros fuel w out L; (destruct fuel as [|fuel]; [cbn in L; lia|]); cbn [write_lines]; rewrite G; cbn [bind].
  - change ((-2 =? -2)%Z) with true. cbv iota. cbn [flat_map]. rewrite app_nil_r. reflexivity.
  - change ((0 =? -2)%Z) with false. cbv iota. rewrite IH by (cbn in L; lia). cbn [flat_map]. rewrite <- app_assoc. reflexivity.
Qed.
Lemma name_loop_ok path : forall n, n <= length path -> ~ In "/"%char (skipn n path) ->
  exists b, name_loop path n = Ok b /\ last_part path b.
Proof.
  induction n as [|n IH]; intros L N.
  - exists path. split; [reflexivity|]. split; [exact N|left; reflexivity].
  - cbn [name_loop]. destruct (nth_error path n) as [c|] eqn:E.
    2: { apply nth_error_None in E. lia. }
    assert (R : rd (cs path) (Z.of_nat n) = Ok c).
    { unfold rd. destruct (Z.ltb_spec (Z.of_nat n) 0); [lia|]. cbn [orb]. rewrite Nat2Z.id. unfold cs. rewrite nth_error_app1 by lia. rewrite E. reflexivity. }
    rewrite R. cbn [bind]. apply nth_error_split in E. destruct E as (a & u & E & La).
    assert (Su : skipn (S n) path = u).
    { rewrite E, <- La. replace (a ++ c :: u) with ((a ++ [c]) ++ u) by (rewrite <- app_assoc; reflexivity).
      rewrite skipn_app. rewrite skipn_all2 by (rewrite app_length; cbn; lia). rewrite app_length. cbn [length app].
      replace (S (length a) - (length a + 1)) with 0 by lia. reflexivity. }
    rewrite Su in N. destruct (Ascii.eqb_spec c "/") as [->|Nc].
    + replace (n + 1) with (S n) by lia. rewrite Su. exists u. split; [reflexivity|]. split; [exact N|right; eauto].
    + apply IH; [lia|]. assert (Sn : skipn n path = c :: u).
      { rewrite E, <- La, skipn_app, skipn_all, Nat.sub_diag. reflexivity. }
      rewrite Sn. intros [F|F]; [congruence|apply N, F].
Qed.
Lemma file_name_ok path : exists b, file_name path = Ok b /\ last_part path b.
Proof. apply name_loop_ok; [lia|]. rewrite skipn_all. intros []. Qed.
Lemma last_part_fun path a b : last_part path a -> last_part path b -> a = b.
Proof.
  intros [Na Ha] [Nb Hb].
  assert (H : forall d e (x y : bytes), ~ In "/"%char x -> ~ In "/"%char y -> d ++ "/"%char :: x = e ++ "/"%char :: y -> x = y).
  { induction d as [|c d IH]; intros [|c' e] x y Nx Ny E; cbn [app] in E.
    - congruence.
    - injection E as <- E. destruct Nx. rewrite E. apply in_or_app. right. left. reflexivity.
    - injection E as -> E. destruct Ny. rewrite <- E. apply in_or_app. right. left. reflexivity.
    - injection E as _ E. eapply IH; eauto. }
  assert (In_ : forall d x, In "/"%char (d ++ "/"%char :: x)) by (intros; apply in_or_app; right; left; reflexivity).
  destruct Ha as [->|(d & ->)], Hb as [E|(e & E)].
  - exact E.
  - destruct Na. rewrite E. apply In_.
  - destruct Nb. rewrite <- E. apply In_.
  - eapply H; eauto.
Qed.
Lemma ascii_all (P : ascii -> Prop) : (forall n, n < 256 -> P (ascii_of_nat n)) -> forall c, P c.
Proof. intros H c. rewrite <- (ascii_nat_embedding c). apply H. apply nat_ascii_bounded. Qed.
Lemma capital_ok c : capital c (to_upper (clean_char c)).
Proof. destruct c as [[] [] [] [] [] [] [] []]; vm_compute; reflexivity. Qed.
Lemma capital_fun c d e : capital c d -> capital c e -> d = e.
Proof.
  unfold capital. destruct (lower_letter c).
  - intros A B. rewrite <- (ascii_nat_embedding d), <- (ascii_nat_embedding e). f_equal. lia.
  - destruct (_ || _); congruence.
Qed.
Lemma macro_ok path b : last_part path b -> macro_name path (upper (clean_name b)).
Proof.
  intros H. exists b. split; [exact H|]. unfold upper, clean_name. rewrite map_map. clear H. induction b as [|c b IH]; constructor; [apply capital_ok|exact IH].
Qed.
Lemma macro_fun path a b : macro_name path a -> macro_name path b -> a = b.
Proof.
  intros (x & Px & Fx) (y & Py & Fy). pose proof (last_part_fun _ _ _ Px Py) as <-. clear Px Py. revert b Fy.
  induction Fx as [|c d l m H F IH]; intros b Fy; inversion Fy; subst; [reflexivity|]. f_equal; [eapply capital_fun; eassumption|apply IH; assumption].
Qed.

(** ** the whole header *)
Definition head_text (b name : bytes) : bytes :=
  s2b "/**" ++ [LF] ++ s2b " * C inline representation for DTD " ++ b ++ s2b ", created by axl-knife" ++ [LF] ++ s2b " */" ++ [LF]
    ++ s2b "#ifndef __" ++ name ++ s2b "_H__" ++ [LF] ++ s2b "#define __" ++ name ++ s2b "_H__" ++ [LF]
    ++ s2b "#define " ++ name ++ s2b " ""\n\" ++ [LF].
Definition tail_text : bytes := s2b "\n""" ++ [LF] ++ s2b "#endif" ++ [LF].
Lemma dtd_to_c_ok path content : exists st win left b, stream_file content = Ok st /\ gmem st win left /\ content = win ++ left /\
  last_part path b /\
  forall ls, reads st ls -> length ls <= 2 + length content -> exists w, w = (widest 0 ls + 1)%Z /\
  dtd_to_c path content = Ok (head_text b (upper (clean_name b)) ++ flat_map (fun l => put_line w (shown_line l)) ls ++ tail_text).
Proof.
  destruct (stream_file_g content) as (st & win & left & E & M & C & _). destruct (file_name_ok path) as (b & Eb & Lb).
  exists st, win, left, b. repeat (split; [assumption|]). intros ls R L. eexists. split; [reflexivity|].
  unfold dtd_to_c. rewrite E. cbn [bind]. rewrite (longest_ok _ _ R) by exact L. cbn [bind]. rewrite Eb. cbn [bind]. cbv zeta.
  rewrite (write_ok _ _ R) by exact L. cbn [bind]. unfold head_text, tail_text. rewrite <- !app_assoc. reflexivity.
Qed.

(** ** as a C compiler reads it *)
Lemma splice_plain s t : ~ In backslash s -> splice (s ++ t) = s ++ splice t.
Proof.
  induction s as [|c s IH]; intros N; [reflexivity|]. cbn [app]. assert (Nc : c <> backslash) by (intros E; apply N; left; exact E).
  assert (Ns : ~ In backslash s) by (intros H; apply N; right; exact H). specialize (IH Ns).
  cbn [splice]. destruct (s ++ t) as [|d r] eqn:E.
  - destruct s, t; try discriminate. reflexivity.
  - rewrite <- IH. destruct (Ascii.eqb_spec c backslash) as [F|F]; [contradiction|]. reflexivity.
Qed.
Lemma splice_join t : splice (backslash :: nl :: t) = splice t.
Proof. reflexivity. Qed.
Lemma splice_n t : splice (backslash :: "n"%char :: t) = backslash :: "n"%char :: splice t.
Proof.
  change (splice (backslash :: "n"%char :: t)) with (backslash :: splice ("n"%char :: t)). f_equal.
  apply (splice_plain ["n"%char] t). intros [F|[]]. discriminate.
Qed.
Definition padded (w : Z) (l : bytes) : bytes := repeat " "%char (Z.to_nat w - length l) ++ str "  ".
Definition joined (w : Z) (ls : list bytes) : bytes := flat_map (fun l => shown_line l ++ padded w (shown_line l)) ls.
Lemma repeat_in {A} (x y : A) n : In y (repeat x n) -> y = x.
Proof. apply repeat_spec. Qed.
Lemma splice_lines w ls t : Forall (fun l => ~ In backslash (shown_line l)) ls ->
  splice (flat_map (fun l => put_line w (shown_line l)) ls ++ t) = joined w ls ++ splice t.
Proof.
  induction 1 as [|l ls N F IH]; [reflexivity|]. cbn [flat_map joined]. fold (joined w ls). unfold put_line at 1.
  change (s2b "  \" ++ [LF]) with (str "  " ++ [backslash; nl]).
  replace ((shown_line l ++ repeat " "%char (Z.to_nat w - length (shown_line l)) ++ str "  " ++ [backslash; nl]) ++ flat_map (fun l0 => put_line w (shown_line l0)) ls)
    with ((shown_line l ++ padded w (shown_line l)) ++ backslash :: nl :: flat_map (fun l0 => put_line w (shown_line l0)) ls)
    by (unfold padded; rewrite <- !app_assoc; reflexivity).
  rewrite <- app_assoc, splice_plain.
  - cbn [app]. rewrite splice_join, IH, <- !app_assoc. reflexivity.
  - intros H. apply in_app_iff in H. destruct H as [H|H]; [apply N, H|]. unfold padded in H. apply in_app_iff in H.
    destruct H as [H|H]; [apply repeat_spec in H; discriminate|]. cbn in H. destruct H as [H|[H|[]]]; discriminate.
Qed.
Definition c_plain (c : ascii) : Prop := ~ In c ["034"%char; backslash; nl; cr; NUL].
Lemma c_chars_plain s t v : Forall c_plain s -> c_chars t v -> c_chars (s ++ t) (s ++ v).
Proof. induction 1 as [|c s P F IH]; intros H; [exact H|]. cbn [app]. constructor; [exact P|apply IH, H]. Qed.
