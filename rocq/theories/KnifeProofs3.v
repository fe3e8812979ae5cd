(** The header made from a document type definition holds it. *)
From Verif Require Import Prelude StrModel StrSpec StrProofs StreamModel XmlSpec DtdModel DtdDocModel LoadSpec LoadModel KnifeModel KnifeSpec KnifeProofs KnifeProofs2.

Open Scope nat_scope.
Open Scope list_scope.
Local Arguments Z.of_nat : simpl never.
Local Arguments Z.to_nat : simpl never.
Local Arguments Z.ltb : simpl never.

(** ** characters *)
Lemma shown_flat c : shown_char c = flat_char c.
Proof. destruct c as [[] [] [] [] [] [] [] []]; vm_compute; reflexivity. Qed.
Lemma shown_plain c : kept_char c -> c <> nl -> c_plain (shown_char c).
Proof.
  intros (A & B & C) D [F|[F|[F|[F|[F|[]]]]]]; revert A B C D F; destruct c as [[] [] [] [] [] [] [] []]; vm_compute; congruence.
Qed.
Lemma cstr_id s : nul_free s -> cstr s = s.
Proof.
  induction s as [|c s IH]; intros N; [reflexivity|]. cbn [cstr]. destruct (Ascii.eqb_spec c NUL) as [F|F].
  - destruct N. left. exact F.
  - rewrite IH; [reflexivity|]. intros H. apply N. right. exact H.
Qed.
Lemma kept_nul s : Forall kept_char s -> nul_free s.
Proof. intros F H. rewrite Forall_forall in F. destruct (F _ H) as (_ & _ & E). congruence. Qed.
Lemma shown_line_kept l : Forall kept_char l -> shown_line l = map shown_char l.
Proof. intros F. unfold shown_line. rewrite cstr_id by (apply kept_nul, F). reflexivity. Qed.
Lemma line_plain l : Forall kept_char l -> no_lf l -> Forall c_plain (shown_line l).
Proof.
  intros F N. rewrite shown_line_kept by exact F. rewrite Forall_forall. intros c H. apply in_map_iff in H. destruct H as (d & <- & I).
  apply shown_plain; [rewrite Forall_forall in F; apply F, I|]. intros E. apply N. rewrite E in I. exact I.
Qed.
Lemma pieces_all (P : ascii -> Prop) s : Forall P s -> Forall (fun l => Forall P l /\ no_lf l) (pieces s).
Proof.
  induction 1 as [|c s H F IH]; [repeat constructor; intros []|]. cbn [pieces]. destruct (Ascii.eqb_spec LF c) as [E|E].
  - constructor; [split; [constructor|intros []]|exact IH].
  - destruct (pieces s) as [|p ps]; [repeat constructor; auto; intros [G|[]]; congruence|]. inversion IH as [|? ? [A B] C]; subst.
    constructor; [|exact C]. split; [constructor; assumption|]. intros [G|G]; [congruence|apply B, G].
Qed.

(** ** the string *)
Definition blanks (w : bytes) : Prop := w <> [] /\ Forall (eq " "%char) w.
Lemma padded_blanks w l : blanks (padded w l).
Proof.
  unfold padded. split; [destruct (repeat _ _); discriminate|]. apply Forall_app. split; [|repeat constructor].
  rewrite Forall_forall. intros x H. apply repeat_spec in H. auto.
Qed.
Lemma blank_plain w : Forall (eq " "%char) w -> Forall c_plain w.
Proof. apply Forall_impl. intros c <-. intros [F|[F|[F|[F|[F|[]]]]]]; discriminate. Qed.
Lemma joined_plain w s : Forall kept_char s -> Forall c_plain (joined w (pieces s)).
Proof.
  intros K. pose proof (pieces_all _ _ K) as P. induction P as [|l ls [A B] C IH]; [constructor|]. cbn [joined flat_map].
  apply Forall_app. split; [|exact IH]. apply Forall_app. split; [apply line_plain; assumption|apply blank_plain, padded_blanks].
Qed.
Lemma flat_app a t b u : flat a t -> flat b u -> flat (a ++ b) (t ++ u).
Proof.
  induction 1 as [|c s t N F IH|w s t Hw Hb F IH]; intros G; [exact G| |].
  - cbn [app]. constructor; [exact N|apply IH, G].
  - cbn [app]. rewrite <- app_assoc. constructor; auto.
Qed.
Lemma flat_plain l : no_lf l -> flat l (map shown_char l).
Proof.
  induction l as [|c l IH]; intros N; [constructor|]. cbn [map]. rewrite shown_flat. constructor; [intros E; apply N; left; exact E|].
  apply IH. intros H. apply N. right. exact H.
Qed.
Lemma joined_flat w n : forall s, length s <= n -> Forall kept_char s -> exists t b, joined w (pieces s) = t ++ b /\ flat s t /\ blanks b.
Proof.
  induction n as [n IH] using lt_wf_ind. intros s L K. destruct (cut s) as [[a u]|] eqn:C.
  - apply cut_some in C. destruct C as [-> N]. rewrite pieces_app by exact N. cbn [joined flat_map]. fold (joined w (pieces u)).
    apply Forall_app in K. destruct K as [Ka Ku]. inversion Ku; subst. rewrite app_length in L. cbn [length] in L.
    destruct (IH (length u) ltac:(lia) u ltac:(lia)) as (t & b & E & F & B); [assumption|].
    destruct (padded_blanks w (shown_line a)) as [P1 P2].
    exists ((shown_line a ++ padded w (shown_line a)) ++ t), b. rewrite E, <- !app_assoc. split; [reflexivity|]. split; [|exact B].
    apply flat_app; [rewrite shown_line_kept by exact Ka; apply flat_plain, N|]. apply (flat_line (padded w (shown_line a))); auto.
  - apply cut_no in C. rewrite pieces_none by exact C. cbn [joined flat_map]. rewrite app_nil_r.
    exists (shown_line s), (padded w (shown_line s)). split; [reflexivity|]. split; [|apply padded_blanks].
    rewrite shown_line_kept by exact K. apply flat_plain, C.
Qed.

(** ** the header *)
Lemma capital_id c d : capital c d -> id_start d || digit d = true -> c <> backslash.
Proof. unfold capital. intros H I ->. change (lower_letter backslash) with false in H. cbn in H. subst d. discriminate. Qed.
Lemma id_all s : identifier s -> forallb (fun d => id_start d || digit d) s = true.
Proof. destruct s as [|c s]; [intros []|]. intros [A B]. cbn [forallb]. rewrite A, B. reflexivity. Qed.
Lemma base_plain b name : Forall2 capital b name -> identifier name -> ~ In backslash b.
Proof.
  intros F I. apply id_all in I. induction F as [|c d b name H F IH]; [intros []|]. cbn [forallb] in I. apply andb_true_iff in I. destruct I as [I1 I2].
  intros [E|E]; [|apply IH in E; auto]. eapply capital_id; eauto.
Qed.
Lemma name_plain name : identifier name -> ~ In backslash name.
Proof. intros I H. apply id_all in I. rewrite forallb_forall in I. apply I in H. discriminate. Qed.
Lemma guard_id name : identifier name -> identifier (str "__" ++ name ++ str "_H__").
Proof.
  intros I. apply id_all in I. change (str "__" ++ name ++ str "_H__") with ("_"%char :: "_"%char :: name ++ str "_H__"). split; [reflexivity|].
  cbn [forallb]. rewrite forallb_app, I. reflexivity.
Qed.
Ltac bs_free := let H := fresh in intros H; repeat (apply in_app_iff in H; destruct H as [H|H]); try contradiction;
  cbn in H; repeat (destruct H as [H|H]; [discriminate|]); try contradiction.
Lemma header_defines b name w s : Forall2 capital b name -> ~ In "/"%char b -> identifier name -> Forall kept_char s ->
  defines (head_text b name ++ flat_map (fun l => put_line w (shown_line l)) (pieces s) ++ tail_text) name
    ([nl] ++ joined w (pieces s) ++ [nl]).
Proof.
  intros Fb Nb Id K. pose proof (base_plain _ _ Fb Id) as Pb. pose proof (name_plain _ Id) as Pn.
  set (body := flat_map _ _).
  assert (Eh : exists a, head_text b name ++ body ++ tail_text = a ++ backslash :: "n"%char :: backslash :: nl :: body ++ tail_text /\
    a = str "/*" ++ (str "*" ++ [nl] ++ str " * C inline representation for DTD " ++ b ++ str ", created by axl-knife" ++ [nl] ++ str " ") ++ str "*/" ++ [nl]
      ++ str "#ifndef " ++ (str "__" ++ name ++ str "_H__") ++ [nl] ++ str "#define " ++ (str "__" ++ name ++ str "_H__") ++ [nl]
      ++ str "#define " ++ name ++ str " " ++ ["034"%char]).
  { eexists. split; [|reflexivity]. unfold head_text. repeat (rewrite <- !app_assoc; cbn [app s2b list_ascii_of_string str]). reflexivity. }
  destruct Eh as (a & Eh & Ea).
  exists (str "*" ++ [nl] ++ str " * C inline representation for DTD " ++ b ++ str ", created by axl-knife" ++ [nl] ++ str " "), (str "__" ++ name ++ str "_H__"),
    (["034"%char] ++ (backslash :: "n"%char :: joined w (pieces s) ++ [backslash; "n"%char]) ++ ["034"%char]).
  split.
  - rewrite Eh. rewrite splice_plain.
    2: { rewrite Ea. bs_free. }
    rewrite splice_n, splice_join. unfold body. rewrite splice_lines.
    2: { pose proof (pieces_all _ _ K) as P. revert P. apply Forall_impl. intros l [A B] H. apply line_plain in H0 || (pose proof (line_plain _ A B) as Q; rewrite Forall_forall in Q; apply Q in H; apply H; right; left; reflexivity). }
    unfold tail_text. change (s2b "\n""" ++ [LF] ++ s2b "#endif" ++ [LF]) with (backslash :: "n"%char :: ["034"%char; nl] ++ str "#endif" ++ [nl]).
    rewrite splice_n. rewrite <- (app_nil_r (["034"%char; nl] ++ str "#endif" ++ [nl])), splice_plain by bs_free. rewrite Ea.
    repeat (rewrite <- !app_assoc; cbn [app]). reflexivity.
  - split.
    { intros (u & v & E). assert (I : In "/"%char (str "*" ++ [nl] ++ str " * C inline representation for DTD " ++ b ++ str ", created by axl-knife" ++ [nl] ++ str " ")).
      { rewrite E. apply in_or_app. right. apply in_or_app. left. right. left. reflexivity. }
      revert I. bs_free. }
    split; [apply guard_id, Id|]. split; [exact Id|]. split.
    { intros E. apply (f_equal (@length _)) in E. rewrite !app_length in E. cbn in E. lia. }
    eexists. split; [reflexivity|]. constructor. apply (c_chars_plain (joined w (pieces s))); [apply joined_plain, K|]. repeat constructor.
Qed.

Theorem header_ok path content name : macro_name path name -> identifier name -> Forall kept_char content -> fits content ->
  exists h value t w, dtd_to_c path content = Ok h /\ defines h name value /\ value = [nl] ++ t ++ w ++ [nl] /\ flat content t /\ Forall (eq " "%char) w.
Proof.
  intros Mn Id K Ft. destruct (dtd_to_c_ok path content) as (st & win & left & b & E & M & C & Lb & H).
  destruct (stream_file_g content) as (st0 & win0 & left0 & E0 & M0 & C0 & Sm & _). rewrite E in E0. injection E0 as <-.
  destruct (reads_ok (length win0 + length left0) st win0 left0 ltac:(lia) M0) as (x & Q1 & R & Q3 & Q4).
  rewrite <- C0 in *. destruct (H _ R) as (w & Ew & Eh).
  { apply (f_equal (@length _)) in C0. rewrite app_length in C0. lia. }
  pose proof (macro_fun _ _ _ Mn (macro_ok _ _ Lb)) as En. rewrite <- En in Eh.
  assert (Fb : Forall2 capital b name).
  { rewrite En. unfold upper, clean_name. rewrite map_map. clear. induction b as [|c b IH]; constructor; [apply capital_ok|exact IH]. }
  assert (Ke : Forall kept_char (eff x content)).
  { destruct x; [|exact K]. cbn [eff]. specialize (Q1 eq_refl). destruct (exists_last Q1) as (a & y & Ea). rewrite Ea in K |- *.
    rewrite removelast_last. apply Forall_app in K. apply K. }
  pose proof (header_defines b name w (eff x content) Fb (proj1 Lb) Id Ke) as D.
  destruct (joined_flat w (length (eff x content)) (eff x content) ltac:(lia) Ke) as (t & bl & Ej & F & B1 & B2).
  destruct x; cbn [eff] in *.
  - destruct Ft as [Ft|(a & Ea)]; [specialize (Q3 (Sm Ft)); discriminate|].
    assert (Er : removelast content = a) by (rewrite Ea; apply removelast_last). rewrite Er in *.
    eexists _, ([nl] ++ joined w (pieces a) ++ [nl]), (t ++ bl), []. split; [exact Eh|]. split; [exact D|]. split; [rewrite Ej; reflexivity|]. split; [|constructor].
    rewrite Ea. apply flat_app; [exact F|]. rewrite <- (app_nil_r bl). apply flat_line; auto. constructor.
  - eexists _, ([nl] ++ joined w (pieces content) ++ [nl]), t, bl. split; [exact Eh|]. split; [exact D|]. split; [rewrite Ej, <- app_assoc; reflexivity|]. auto.
Qed.

(** a last line that begins in the first buffer and goes beyond it *)
Theorem header_lost path a w z name : macro_name path name -> identifier name -> Forall kept_char (a ++ w ++ [z]) ->
  (a = [] \/ exists a', a = a' ++ [nl]) -> ~ In nl w -> z <> nl ->
  (Z.of_nat (length a) < buffer_size)%Z -> (buffer_size < Z.of_nat (length (a ++ w ++ [z])))%Z ->
  exists h value t b, dtd_to_c path (a ++ w ++ [z]) = Ok h /\ defines h name value /\ value = [nl] ++ t ++ b ++ [nl] /\ flat (a ++ w) t /\ Forall (eq " "%char) b.
Proof.
  intros Mn Id K Ha Nw Nz La Lb. set (content := a ++ w ++ [z]) in *.
  destruct (dtd_to_c_ok path content) as (st & win & left & b & E & M & C & Pb & H).
  destruct (stream_file_g content) as (st0 & win0 & left0 & E0 & M0 & C0 & _ & Lw). rewrite E in E0. injection E0 as <-. specialize (Lw Lb).
  assert (Lc : length content = length a + (length w + 1)) by (unfold content; rewrite !app_length; cbn; lia).
  assert (Sp : exists w1, win0 = a ++ w1 /\ w1 ++ left0 = w ++ [z]).
  { assert (Hs : firstn (length a) content = a) by (unfold content; rewrite firstn_app, firstn_all, Nat.sub_diag; apply app_nil_r).
    rewrite C0, firstn_app in Hs. replace (length a - length win0) with 0 in Hs by lia. cbn [firstn] in Hs. rewrite app_nil_r in Hs.
    exists (skipn (length a) win0). split; [rewrite <- Hs at 1; symmetry; apply firstn_skipn|].
    apply (app_inv_head a). rewrite app_assoc. fold content. rewrite C0. f_equal. rewrite <- Hs at 1. apply firstn_skipn. }
  destruct Sp as (w1 & Ew & Es).
  assert (Nz' : ~ In nl (w ++ [z])) by (intros F; apply in_app_iff in F; destruct F as [F|[F|[]]]; [apply Nw, F|congruence]).
  rewrite <- Es in Nz'.
  assert (R : reads st (pieces (removelast (a ++ w1 ++ left0)))).
  { apply (reads_lost (length a)); auto.
    - rewrite <- Ew. exact M0.
    - intros F. apply Nz', in_or_app. left. exact F.
    - intros F. rewrite F, app_nil_r in Ew. subst win0. lia.
    - intros F. apply Nz', in_or_app. right. exact F.
    - intros F. rewrite F, app_nil_r in C0. rewrite C0 in Lb. lia. }
  rewrite Es in R. rewrite app_assoc, removelast_last in R.
  assert (Ke : Forall kept_char (a ++ w)) by (unfold content in K; rewrite app_assoc in K; apply Forall_app in K; apply K).
  destruct (H _ R) as (wd & Ewd & Eh).
  { assert (forall s, length (pieces s) <= S (length s)).
    { induction s as [|c s IH]; [cbn; lia|]. cbn [pieces]. destruct (Ascii.eqb LF c); cbn [length]; [lia|]. destruct (pieces s); cbn [length] in *; lia. }
    specialize (H0 (a ++ w)). rewrite app_length in H0. lia. }
  pose proof (macro_fun _ _ _ Mn (macro_ok _ _ Pb)) as En. rewrite <- En in Eh.
  assert (Fb : Forall2 capital b name).
  { rewrite En. unfold upper, clean_name. rewrite map_map. clear. induction b as [|c b IH]; constructor; [apply capital_ok|exact IH]. }
  pose proof (header_defines b name wd (a ++ w) Fb (proj1 Pb) Id Ke) as D.
  destruct (joined_flat wd (length (a ++ w)) (a ++ w) ltac:(lia) Ke) as (t & bl & Ej & F & B1 & B2).
  eexists _, ([nl] ++ joined wd (pieces (a ++ w)) ++ [nl]), t, bl. split; [exact Eh|]. split; [exact D|]. split; [rewrite Ej, <- app_assoc; reflexivity|]. auto.
Qed.
