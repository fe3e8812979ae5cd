From Verif Require Import Prelude StrModel StrSpec StrProofs StrProofs2 StrProofs3 EscModel EscSpec EscExec EscProofs.
Open Scope Z_scope.
Local Arguments Z.of_nat : simpl never.
Local Arguments Z.add : simpl never.
Local Arguments Z.sub : simpl never.
Local Arguments Z.mul : simpl never.
Local Arguments Ascii.eqb : simpl never.
Local Arguments firstn : simpl never.
Local Arguments skipn : simpl never.

(** a size argument and the part of the content it selects *)
Definition selects (s : bytes) (n : Z) (f r0 : bytes) : Prop :=
  s = f ++ r0 /\ (n = -1 /\ r0 = [] \/ n = Z.of_nat (length f) /\ not_across (length f) s).

Lemma prefix_nul : forall y r0 rest b, nul_free y -> r0 ++ NUL :: rest = y ++ b ->
  exists b', r0 = y ++ b'.
Proof.
  induction y as [|c y IH]; intros r0 rest b H E; [exists r0; reflexivity|].
  apply nul_free_cons in H. destruct H as [H1 H2].
  destruct r0 as [|d r0]; cbn [app] in E; injection E as E1 E2.
  - subst c. rewrite Ascii.eqb_refl in H1. discriminate.
  - subst d. destruct (IH _ _ _ H2 E2) as [b' ->]. exists b'. reflexivity.
Qed.
Lemma selects_straddle s n f r0 rest : selects s n f r0 -> no_straddle f (r0 ++ NUL :: rest).
Proof.
  intros [Es H] a x y b E1 E2 Nx Ny E.
  assert (Hy : nul_free y).
  { assert (nul_free (x ++ y)) as K by (rewrite E; apply nul_free_lit; reflexivity). apply nul_free_app in K. tauto. }
  destruct (prefix_nul _ _ _ _ Hy E2) as [b' ->].
  destruct H as [[_ H]|[_ H]].
  - apply app_eq_nil in H. tauto.
  - assert (A : s = a ++ cdata_end ++ b').
    { rewrite Es, E1, <- E, <- !app_assoc. reflexivity. }
    pose proof (f_equal (@length ascii) E) as L. rewrite app_length in L.
    destruct (H _ _ A) as [K|K]; rewrite E1, app_length in K;
      destruct x, y; try contradiction; cbn [length] in *; lia.
Qed.

Lemma size_of s n f r0 rest : nul_free s -> selects s n f r0 ->
  (if n =? -1 then c_strlen (s ++ NUL :: rest) else Ok n) = Ok (Z.of_nat (length f)).
Proof.
  intros Hn [Es [[-> ->]|[-> _]]].
  - rewrite app_nil_r in Es. subst f. change (-1 =? -1) with true. cbv iota. apply strlen_ok. exact Hn.
  - destruct (Z.eqb_spec (Z.of_nat (length f)) (-1)); [lia|reflexivity].
Qed.

Lemma has_invalid_ok s n f r0 rest cdata : nul_free s -> selects s n f r0 ->
  has_invalid_chars_internal (s ++ NUL :: rest) n cdata =
  Ok (grows cdata f, Z.of_nat (length (esc cdata f)) - Z.of_nat (length f)).
Proof.
  intros Hn H. unfold has_invalid_chars_internal. rewrite (size_of s n f r0) by assumption. cbn [bind].
  rewrite nat_id. pose proof (selects_straddle _ _ _ _ rest H) as St. destruct H as [-> _].
  pose proof (invalid_loop_ok cdata (S (length f)) f [] r0 rest false 0 ltac:(lia) St) as K.
  cbn [app length] in K. change (Z.of_nat 0) with 0 in K. rewrite !Z.add_0_l in K. cbn [orb] in K.
  rewrite <- app_assoc. exact K.
Qed.
(** when the exact number of bytes is known the counting pass accepts it again *)
Lemma has_invalid_len s n f r0 rest cdata : nul_free s -> selects s n f r0 ->
  has_invalid_chars_internal (s ++ NUL :: rest) (Z.of_nat (length f)) cdata =
  Ok (grows cdata f, Z.of_nat (length (esc cdata f)) - Z.of_nat (length f)).
Proof.
  intros Hn [Es H]. apply (has_invalid_ok _ _ _ r0); [exact Hn|]. split; [exact Es|]. right. split; [reflexivity|].
  destruct H as [[_ ->]|[_ H]]; [|exact H]. rewrite app_nil_r in Es. subst f.
  intros a b E. right. rewrite E, !app_length. lia.
Qed.
Lemma copy_and_escape_ok s n f r0 rest cdata : nul_free s -> selects s n f r0 ->
  copy_and_escape (s ++ NUL :: rest) (Z.of_nat (length f))
    (Z.of_nat (length (esc cdata f)) - Z.of_nat (length f)) cdata = Ok (cs (esc cdata f)).
Proof.
  intros Hn H. unfold copy_and_escape.
  pose proof (selects_straddle _ _ _ _ rest H) as St. destruct H as [-> _].
  pose proof (escape_loop_ok cdata (S (length f)) f [] r0 rest [] ltac:(lia) St) as K.
  cbn [app length] in K. change (Z.of_nat 0) with 0 in K. rewrite Z.add_0_l in K.
  rewrite <- app_assoc, nat_id.
  replace (Z.to_nat (Z.of_nat (length f) + (Z.of_nat (length (esc cdata f)) - Z.of_nat (length f)) + 1))
    with (length (esc cdata f) + 1)%nat by lia.
  exact K.
Qed.

Lemma grows_false cdata f : grows cdata f = false -> esc cdata f = f.
Proof.
  unfold grows. intro H. apply Nat.ltb_ge in H. pose proof (esc_len cdata _ f (le_n _)).
  apply (esc_same cdata (length f)); lia.
Qed.

Lemma memcpy_new s : memcpy_to (repeat NUL (length s + 1)) 0 s = Ok (cs s).
Proof.
  change (repeat NUL (length s + 1)) with ([] ++ repeat NUL (length s + 1)).
  change 0 with (Z.of_nat (length (@nil ascii))). rewrite memcpy_fresh by lia.
  replace (length s + 1 - length s)%nat with 1%nat by lia. reflexivity.
Qed.
Lemma strdup_ok s rest : nul_free s -> c_strdup (s ++ NUL :: rest) = Ok (cs s).
Proof.
  intro H. unfold c_strdup. rewrite strlen_ok by exact H. cbn [bind].
  change (s ++ NUL :: rest) with ([] ++ s ++ NUL :: rest).
  rewrite mem_sub_app by reflexivity. cbn [bind].
  replace (Z.to_nat (Z.of_nat (length s) + 1)) with (length s + 1)%nat by lia. apply memcpy_new.
Qed.

Lemma set_content_ok items s n f r0 rest : nul_free s -> selects s n f r0 ->
  node_set_content items (s ++ NUL :: rest) n =
  Ok (items ++ [ItContent (cs (esc false f)) (Z.of_nat (length (esc false f)))]).
Proof.
  intros Hn H. unfold node_set_content, has_invalid_chars. rewrite (size_of s n f r0) by assumption. cbn [bind].
  rewrite (has_invalid_len s n f r0) by assumption. cbn [bind].
  destruct (grows false f) eqn:G.
  - rewrite (copy_and_escape_ok s n f r0) by assumption. cbn [bind]. do 4 f_equal. lia.
  - rewrite (grows_false _ _ G). destruct H as [-> _].
    rewrite <- app_assoc. change (f ++ r0 ++ NUL :: rest) with ([] ++ f ++ r0 ++ NUL :: rest).
    rewrite mem_sub_app by reflexivity. cbn [bind].
    replace (Z.to_nat (Z.of_nat (length f) + 1)) with (length f + 1)%nat by lia. rewrite memcpy_new. reflexivity.
Qed.
Lemma set_cdata_ok items s n f r0 rest : nul_free s -> selects s n f r0 ->
  node_set_cdata_content items (s ++ NUL :: rest) n =
  Ok (items ++ [ItCdata (if grows true f then cs (esc true f) else cs s) (Z.of_nat (length (esc true f)))]).
Proof.
  intros Hn H. unfold node_set_cdata_content, has_invalid_chars_cdata. rewrite (size_of s n f r0) by assumption. cbn [bind].
  rewrite (has_invalid_len s n f r0) by assumption. cbn [bind].
  destruct (grows true f) eqn:G.
  - rewrite (copy_and_escape_ok s n f r0) by assumption. cbn [bind]. do 4 f_equal. lia.
  - rewrite strdup_ok by assumption. cbn [bind]. rewrite (grows_false _ _ G). reflexivity.
Qed.

Lemma selects_all s : selects s (-1) s [].
Proof. split; [rewrite app_nil_r; reflexivity|left; split; reflexivity]. Qed.

Lemma attr_escape_ok s rest : nul_free s -> attr_escape (s ++ NUL :: rest) = Ok (cs (esc false s)).
Proof.
  intro Hn. unfold attr_escape, has_invalid_chars. rewrite strlen_ok by exact Hn. cbn [bind].
  rewrite (has_invalid_len s (-1) s []) by (auto using selects_all). cbn [bind].
  destruct (grows false s) eqn:G.
  - apply (copy_and_escape_ok s (-1) s []); auto using selects_all.
  - rewrite strdup_ok by exact Hn. rewrite (grows_false _ _ G). reflexivity.
Qed.

Lemma translate_ok s rest n : nul_free s -> n = Z.of_nat (length (flat_map echar s)) \/ n = -1 ->
  exists b, content_translate_defaults (flat_map echar s ++ NUL :: rest) n = Ok (b, Z.of_nat (length s)) /\ holds b s.
Proof.
  intros Hn H. unfold content_translate_defaults.
  assert (E : (if (n =? 0) || (n =? -1) then c_strlen (flat_map echar s ++ NUL :: rest) else Ok n) =
    Ok (Z.of_nat (length (flat_map echar s)))).
  { destruct ((n =? 0) || (n =? -1)) eqn:D.
    - apply strlen_ok. apply chars_nul_free. exact Hn.
    - destruct H as [->| ->]; [reflexivity|discriminate]. }
  rewrite E. cbn [bind]. rewrite nat_id.
  destruct (translate_loop_ok s (S (length (flat_map echar s))) [] [] rest Hn) as (junk & L & K).
  { rewrite <- esc_chars. pose proof (esc_len false _ s (le_n _)). lia. }
  cbn [app length] in K. change (Z.of_nat 0) with 0 in K. rewrite K. cbn [bind].
  assert (exists x y, junk ++ NUL :: rest = x :: y) as (x & y & Ej) by (destruct junk; eexists; eexists; reflexivity).
  rewrite Ej, wr_app by reflexivity. cbn [bind]. eexists. split; [reflexivity|].
  split; [exact Hn|]. exists y. reflexivity.
Qed.

(** ** C19 *)
Lemma escape_roundtrip s rest : nul_free s ->
  exists bad add e b,
    has_invalid_chars (s ++ NUL :: rest) (-1) = Ok (bad, add) /\
    content_copy_and_escape (s ++ NUL :: rest) (Z.of_nat (length s)) add = Ok (cs e) /\
    no_markup e /\ nul_free e /\ (bad = false -> e = s) /\
    content_translate_defaults (cs e) (Z.of_nat (length e)) = Ok (b, Z.of_nat (length s)) /\ holds b s.
Proof.
  intro Hn. destruct (translate_ok s [] (Z.of_nat (length (flat_map echar s))) Hn) as (b & T & Hb); [left; reflexivity|].
  exists (grows false s), (Z.of_nat (length (esc false s)) - Z.of_nat (length s)), (esc false s), b.
  split; [apply (has_invalid_ok s (-1) s []); auto using selects_all|].
  split; [apply (copy_and_escape_ok s (-1) s []); auto using selects_all|].
  rewrite !esc_chars. split; [apply chars_no_markup|]. split; [apply chars_nul_free; exact Hn|].
  split; [rewrite <- esc_chars; apply grows_false|]. split; [exact T|exact Hb].
Qed.
Lemma attr_roundtrip s rest : nul_free s ->
  exists e b, attr_escape (s ++ NUL :: rest) = Ok (cs e) /\ no_markup e /\ nul_free e /\
    attr_value_trans (cs e) = Ok b /\ holds b s.
Proof.
  intro Hn. destruct (translate_ok s [] (Z.of_nat (length (flat_map echar s))) Hn) as (b & T & Hb); [left; reflexivity|].
  exists (flat_map echar s), b. rewrite <- (esc_chars s) at 1. split; [apply attr_escape_ok; exact Hn|].
  pose proof (chars_nul_free _ Hn) as Hc.
  split; [apply chars_no_markup|]. split; [exact Hc|].
  split; [|exact Hb]. unfold attr_value_trans. unfold cs at 1. rewrite strdup_ok by exact Hc. cbn [bind].
  rewrite strlen_cs by exact Hc. cbn [bind]. unfold cs. rewrite T. reflexivity.
Qed.

(** ** C45 *)
Definition op_text (o : text_op) : option bytes :=
  match o with SetText s | SetCdata s => Some s | SetOther => None end.
Definition op_item (o : text_op) : item :=
  match o with
  | SetText s => ItContent (cs (flat_map echar s)) (Z.of_nat (length (flat_map echar s)))
  | SetCdata s => ItCdata (cs (flat_map echar s)) (Z.of_nat (length (flat_map echar s)))
  | SetOther => ItOther
  end.
Definition op_fine (o : text_op) : Prop :=
  match o with
  | SetText s => nul_free s
  | SetCdata s => nul_free s /\ ~ occurs cdata_end s
  | SetOther => True
  end.
Lemma run_texts_ok : forall ops items, Forall op_fine ops ->
  run_texts items ops = Ok (items ++ map op_item ops).
Proof.
  induction ops as [|o ops IH]; intros items H; [cbn; rewrite app_nil_r; reflexivity|].
  inversion H as [|? ? H1 H2]; subst. destruct o as [s|s|]; cbn [run_texts map].
  - unfold cs at 1. rewrite (set_content_ok items s (-1) s []) by (auto using selects_all). cbn [bind].
    rewrite IH by exact H2. rewrite <- app_assoc, esc_chars. reflexivity.
  - destruct H1 as [H1 H3]. unfold cs at 1. rewrite (set_cdata_ok items s (-1) s []) by (auto using selects_all). cbn [bind].
    rewrite IH by exact H2. rewrite <- app_assoc. cbn [app]. unfold op_item at 2.
    rewrite <- (esc_true_chars (length s) s) by (auto). destruct (grows true s) eqn:G; [reflexivity|].
    rewrite (grows_false _ _ G). reflexivity.
  - rewrite IH by exact H2. rewrite <- app_assoc. reflexivity.
Qed.

(** the texts, in order *)
Fixpoint texts (ops : list text_op) : list bytes :=
  match ops with
  | [] => []
  | o :: r => match op_text o with Some s => s :: texts r | None => texts r end
  end.
Lemma trans_count_ok : forall ops k total,
  trans_count (map op_item ops) k total =
  ((k + length (texts ops))%nat, total + Z.of_nat (length (flat_map echar (concat (texts ops))))).
Proof.
  induction ops as [|o ops IH]; intros k total; cbn [map trans_count texts].
  - cbn. f_equal; lia.
  - destruct o as [s|s|]; cbn [op_item op_text texts concat length]; rewrite IH; [| |reflexivity];
      rewrite flat_map_app, app_length; f_equal; lia.
Qed.
Lemma trans_copy_ok : forall ops done,
  trans_copy (map op_item ops)
    (done ++ repeat NUL (length (flat_map echar (concat (texts ops))) + 1)) (Z.of_nat (length done)) =
  Ok ((done ++ flat_map echar (concat (texts ops))) ++ [NUL]).
Proof.
  induction ops as [|o ops IH]; intros done; cbn [map trans_copy texts].
  - cbn [concat flat_map length plus repeat]. rewrite app_nil_r. reflexivity.
  - assert (G : forall s,
      (src <- mem_sub (cs (flat_map echar s)) 0 (Z.of_nat (length (flat_map echar s))) ;;
       out <- memcpy_to (done ++ repeat NUL (length (flat_map echar (concat (s :: texts ops))) + 1)) (Z.of_nat (length done)) src ;;
       trans_copy (map op_item ops) out (Z.of_nat (length done) + Z.of_nat (length (flat_map echar s)))) =
      Ok ((done ++ flat_map echar (concat (s :: texts ops))) ++ [NUL])).
    { intro s. unfold cs. change (flat_map echar s ++ [NUL]) with ([] ++ flat_map echar s ++ [NUL]).
      rewrite mem_sub_app by reflexivity. cbn [bind concat]. rewrite flat_map_app, app_length.
      rewrite memcpy_fresh by lia. cbn [bind].
      replace (length (flat_map echar s) + length (flat_map echar (concat (texts ops))) + 1 - length (flat_map echar s))%nat
        with (length (flat_map echar (concat (texts ops))) + 1)%nat by lia.
      replace (Z.of_nat (length done) + Z.of_nat (length (flat_map echar s))) with (Z.of_nat (length (done ++ flat_map echar s)))
        by (rewrite app_length; lia).
      rewrite IH. rewrite <- !app_assoc. reflexivity. }
    destruct o as [s|s|]; cbn [op_item op_text]; [apply G|apply G|apply IH].
Qed.

Lemma texts_nul_free ops : Forall op_fine ops -> nul_free (concat (texts ops)).
Proof.
  induction 1 as [|o ops H1 H2 IH]; [exact nul_free_nil|].
  destruct o as [s|s|]; cbn [texts op_text concat]; [| |exact IH]; apply nul_free_app; split; try exact IH; cbn in H1; tauto.
Qed.
Lemma get_content_one : forall ops s, texts ops = [s] ->
  node_get_content (map op_item ops) = (cs (flat_map echar s), Z.of_nat (length (flat_map echar s))).
Proof.
  induction ops as [|o ops IH]; intros s E; [discriminate|].
  destruct o as [u|u|]; cbn [texts op_text] in E; cbn [map op_item node_get_content].
  - injection E as -> _. reflexivity.
  - injection E as -> _. reflexivity.
  - apply IH. exact E.
Qed.
Lemma flat_echar_nil s : length (flat_map echar s) = O -> s = [].
Proof.
  rewrite <- esc_chars. pose proof (esc_len false _ s (le_n _)). destruct s; [reflexivity|cbn [length] in *; lia].
Qed.

Lemma texts_read_back ops : Forall op_fine ops ->
  exists items, run_texts [] ops = Ok items /\
    match texts ops with
    | [] => node_get_content_trans items = Ok (None, 0)
    | l => exists b, node_get_content_trans items = Ok (Some b, Z.of_nat (length (concat l))) /\ holds b (concat l)
    end.
Proof.
  intro H. exists (map op_item ops). split; [apply (run_texts_ok ops []); exact H|].
  pose proof (texts_nul_free _ H) as Hn. unfold node_get_content_trans. rewrite trans_count_ok.
  destruct (texts ops) as [|s l] eqn:Et; [reflexivity|]. cbn [length plus].
  assert (F : match length l with
    | O => node_get_content_copy (map op_item ops)
    | S _ => (b <- trans_copy (map op_item ops)
               (repeat NUL (Z.to_nat (0 + Z.of_nat (length (flat_map echar (concat (s :: l)))) + 1))) 0 ;;
              Ok (b, 0 + Z.of_nat (length (flat_map echar (concat (s :: l))))))
    end = Ok (cs (flat_map echar (concat (s :: l))), Z.of_nat (length (flat_map echar (concat (s :: l)))))).
  { destruct l as [|u l]; cbn [length].
    - cbn [concat]. rewrite app_nil_r. cbn [concat] in Hn. rewrite app_nil_r in Hn.
      unfold node_get_content_copy. rewrite (get_content_one ops s Et).
      rewrite strlen_cs by (apply chars_nul_free; exact Hn). cbn [bind].
      destruct (Z.eqb_spec (Z.of_nat (length (flat_map echar s))) 0) as [E|E].
      + assert (s = []) as -> by (apply flat_echar_nil; lia). reflexivity.
      + unfold cs at 1. change (flat_map echar s ++ [NUL]) with ([] ++ flat_map echar s ++ [NUL]).
        rewrite mem_sub_app by reflexivity. cbn [bind].
        replace (Z.to_nat (Z.of_nat (length (flat_map echar s)) + 1)) with (length (flat_map echar s) + 1)%nat by lia.
        rewrite memcpy_new. reflexivity.
    - rewrite Z.add_0_l.
      replace (Z.to_nat (Z.of_nat (length (flat_map echar (concat (s :: u :: l)))) + 1)) with
        (length (flat_map echar (concat (s :: u :: l))) + 1)%nat by lia.
      pose proof (trans_copy_ok ops []) as K. rewrite Et in K. cbn [app length] in K. change (Z.of_nat 0) with 0 in K.
      rewrite K. reflexivity. }
  rewrite F. cbn [bind]. rewrite strlen_cs by (apply chars_nul_free; exact Hn). cbn [bind].
  destruct (Z.eqb_spec (Z.of_nat (length (flat_map echar (concat (s :: l))))) 0) as [E|E].
  - assert (concat (s :: l) = []) as -> by (apply flat_echar_nil; lia).
    exists (cs []). split; [reflexivity|]. split; [exact nul_free_nil|]. exists []. reflexivity.
  - destruct (translate_ok (concat (s :: l)) [] (Z.of_nat (length (flat_map echar (concat (s :: l)))))) as (b & T & Hb);
      [exact Hn|left; reflexivity|].
    exists b. unfold cs. rewrite T. cbn [bind]. split; [reflexivity|exact Hb].
Qed.

Lemma get_trim_ok pre s post cdata :
  nul_free s ->
  let mk b n := if cdata : bool then ItCdata b n else ItContent b n in
  exists b t,
    node_get_content_trim (repeat ItOther pre ++ mk (cs s) (Z.of_nat (length s)) :: post) =
    Ok (repeat ItOther pre ++ mk b (Z.of_nat (length t)) :: post, (b, Z.of_nat (length t))) /\
    trimmed s t /\ holds b t.
Proof.
  intros Hn mk. destruct (trim_ok (cs s) s) as (b & t & E & T & Hb & _); [split; [exact Hn|exists []; reflexivity]|].
  exists b, t. split; [|split; assumption].
  induction pre as [|pre IH]; cbn [repeat app node_get_content_trim].
  - unfold mk. destruct cdata; rewrite E; cbn [bind];
      replace (Z.of_nat (length s) - (Z.of_nat (length s) - Z.of_nat (length t))) with (Z.of_nat (length t)) by lia; reflexivity.
  - rewrite IH. reflexivity.
Qed.
