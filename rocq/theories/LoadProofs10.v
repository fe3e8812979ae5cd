(** What is refused, and what holds of everything that is loaded. *)
From Verif Require Import Prelude StrModel StrSpec StrProofs StrProofs2 StrProofs3 TreeModel StreamModel StreamProofs ParseModel ParseProofs
  XmlSpec GramProofs GramProofs2 DtdModel DtdSpec DtdProofs DtdDocModel DtdDocSpec DtdDocProofs4 LoadModel LoadSpec
  LoadProofs LoadProofs2 LoadProofs3 LoadProofs4 LoadProofs5 LoadProofs6 LoadProofs7 LoadProofs8.
Open Scope Z_scope.
Local Arguments Z.of_nat : simpl never.
Local Arguments Z.to_nat : simpl never.
Local Arguments Z.add : simpl never.
Local Arguments Z.sub : simpl never.
Local Arguments Z.eqb : simpl never.
Local Arguments Z.ltb : simpl never.
Local Arguments Z.leb : simpl never.

(** ** different separators *)
Lemma separator_sep c : separator c -> exists v, sep c v.
Proof. intros [->| ->]; [exists 1; left|exists 2; right]; auto. Qed.
Lemma name_none s ty cur stack x chunk s1 c1 s2 v :
  (if chunk =? 0 then t_which (skip s) chunks_of chunk else (s, chunk)) = (s1, c1) ->
  (if (c1 =? 4) || (c1 =? 5) || (c1 =? 6) then t_separator s1 else Some (s1, c1)) = Some (s2, v) ->
  retype (o_ty cur) v = None -> t_name s ty cur stack x chunk = None.
Proof.
  intros E1 E2 E3. unfold t_name. rewrite E1, E2. change (o_ty (add_part cur (Leaf x (times_of c1)))) with (o_ty cur). rewrite E3. reflexivity.
Qed.
(** a name followed by a separator that the group does not allow *)
Lemma leaf_clash x r t w e v k ty cur stack f : x <> [] -> forallb word_char x = true -> rep_text r t -> blank w -> ending e v ->
  retype (o_ty cur) v = None -> t_spec (S f) (x ++ r ++ w ++ e :: k) ty cur stack = Ok None.
Proof.
  intros N W R B En Rt. cbn [t_spec]. destruct x as [|c x]; [congruence|]. assert (Wc : word_char c = true) by (cbn [forallb] in W; apply andb_true_iff in W; tauto).
  assert (Sk : forall z, skip ((c :: x) ++ z) = (c :: x) ++ z).
  { intros z. cbn [app]. apply skip_here. apply name_white. apply andb_true_iff in Wc as [Wc _]. exact Wc. }
  rewrite Sk. replace (after (s2b "(") ((c :: x) ++ r ++ w ++ e :: k)) with (@None bytes).
  2:{ change (s2b "(") with ["("%char]. cbn [app after]. rewrite (word_not c "(" Wc eq_refl). reflexivity. }
  assert (We : white e = false) by (inversion En; reflexivity).
  assert (E : exists chunk b, until particle_stops (r ++ w ++ e :: k) = Some ([], chunk, r ++ w ++ e :: k, b) /\ (chunk =? 8) = false /\
            forall y, t_name b ty cur stack y chunk = None).
  { assert (Sep : t_separator (w ++ e :: k) = Some (k, v)) by (unfold t_separator; rewrite skip_app_here by assumption; destruct En; reflexivity).
    destruct R.
    - cbn [app]. destruct w as [|w0 w].
      + cbn [app]. exists v, k. split; [destruct En; reflexivity|]. split; [destruct En; reflexivity|]. intros y.
        apply (name_none k ty cur stack y v k v k v); [destruct En; reflexivity|destruct En; reflexivity|exact Rt].
      + assert (white w0 = true /\ blank w) as [Hw0 Hw] by (unfold blank in B; cbn [forallb] in B; apply andb_true_iff in B; exact B).
        cbn [app]. exists 0, (w ++ e :: k). split; [apply white_stop; exact Hw0|]. split; [reflexivity|]. intros y.
        apply (name_none (w ++ e :: k) ty cur stack y 0 k v k v); [|destruct En; reflexivity|exact Rt].
        change (0 =? 0) with true. cbv iota. rewrite skip_app_here by assumption. destruct En; reflexivity.
    - exists 6, (w ++ e :: k). split; [reflexivity|]. split; [reflexivity|]. intros y. apply (name_none _ ty cur stack y 6 (w ++ e :: k) 6 k v); [reflexivity|exact Sep|exact Rt].
    - exists 5, (w ++ e :: k). split; [reflexivity|]. split; [reflexivity|]. intros y. apply (name_none _ ty cur stack y 5 (w ++ e :: k) 5 k v); [reflexivity|exact Sep|exact Rt].
    - exists 4, (w ++ e :: k). split; [reflexivity|]. split; [reflexivity|]. intros y. apply (name_none _ ty cur stack y 4 (w ++ e :: k) 4 k v); [reflexivity|exact Sep|exact Rt]. }
  destruct E as (chunk & b & E1 & E2 & E3). rewrite (until_word _ _ _ W E1). rewrite app_nil_r, E2, E3. reflexivity.
Qed.
Definition no_close (k : bytes) : Prop := after (s2b ")") (skip k) = None.
Lemma cp_no_close w b p k : blank w -> cp_text b p -> no_close (w ++ b ++ k).
Proof.
  intros B C. destruct (cp_head b p C) as (h & r & -> & W & N). unfold no_close. cbn [app]. rewrite skip_app_here by assumption.
  change (s2b ")") with [")"%char]. cbn [after]. destruct (Ascii.eqb_spec ")" h); [congruence|reflexivity].
Qed.
Lemma run_no_close c u ps k : run_text c u ps -> no_close k -> no_close (u ++ k).
Proof. intros R K. destruct R as [|c w b p w' u ps B C B' R]; [exact K|]. rewrite <- !app_assoc. eapply cp_no_close; eassumption. Qed.
(** items and their separators *)
Lemma run_read c v : sep c v -> forall u ps, run_text c u ps -> forall k ty cur stack, no_close k -> fits (o_ty cur) c ->
  exists n, forall f, t_spec (n + f) (u ++ k) ty cur stack =
    t_spec f k ty (Open (if existsb is_leaf ps then ty_of c else o_ty cur) (o_t cur) (o_ps cur ++ map ld ps)) stack.
Proof.
  intros Sp u ps R. revert v Sp. induction R as [c|c w b p w' u ps B C B' R IH]; intros v Sp k ty cur stack K F.
  - exists 0%nat. intros f. cbn [map existsb Nat.add app]. rewrite app_nil_r. destruct cur; reflexivity.
  - destruct (proj1 (proj1 spec_read b p C) c v (u ++ k) w' ty cur stack Sp B' (run_no_close c u ps k R K) F) as (n1 & E1).
    set (cur1 := Open (if is_leaf p then ty_of c else o_ty cur) (o_t cur) (o_ps cur ++ [ld p])) in *.
    destruct (IH v Sp k ty cur1 stack K) as (n2 & E2). { subst cur1. cbn [o_ty]. destruct (is_leaf p); [right; reflexivity|exact F]. }
    exists (n1 + n2)%nat. intros f. rewrite <- Nat.add_assoc, <- !app_assoc, t_spec_blank by exact B. cbn [app]. rewrite E1, E2.
    subst cur1. cbn [o_ty o_t o_ps map existsb]. rewrite <- app_assoc. cbn [app]. f_equal. f_equal.
    destruct (is_leaf p); cbn [orb]; [destruct (existsb is_leaf ps)|]; reflexivity.
Qed.
Lemma open_cons o : open_text o -> exists o', o = "("%char :: o'.
Proof.
  intros O. induction O as [|u c v ps w O (o' & ->) Sc R B]; [eexists; reflexivity|]. eexists. reflexivity.
Qed.
(** a start of a specification, after its first parenthesis *)
Lemma open_read : forall o, open_text o -> forall k ty, no_close k -> exists stack n, forall f, t_spec (n + f) (tl o ++ k) ty open_new [] = t_spec f k ty open_new stack.
Proof.
  intros o O. induction O as [|u c v ps w O IH Sc R B]; intros k ty K.
  - exists [], 0%nat. reflexivity.
  - destruct (open_cons u O) as (u' & ->). cbn [tl app] in *. destruct (separator_sep c Sc) as (vz & Sp).
    assert (K2 : no_close (w ++ str "(" ++ k)) by (unfold no_close; change (str "(" ++ k) with ("("%char :: k); rewrite skip_app_here by (exact B || reflexivity); reflexivity).
    destruct (IH (v ++ w ++ str "(" ++ k) ty) as (stack & n & E); [apply (run_no_close c v ps); assumption|].
    destruct (run_read c vz Sp v ps R (w ++ str "(" ++ k) ty open_new stack K2 (or_introl eq_refl)) as (n2 & E2).
    eexists. exists (n + (n2 + 1))%nat. intros f. rewrite <- !app_assoc. replace (n + (n2 + 1) + f)%nat with (n + (n2 + S f))%nat by lia. rewrite E, E2.
    rewrite t_spec_blank by exact B. apply open_step.
Qed.
Lemma clash_read ps p s : clash_text ps p s -> existsb is_leaf ps = true -> is_leaf p = true -> t_content s = Ok None.
Proof.
  intros C Ls Lp. destruct C as [o c v ps w b p w' c' z O Sc Sc' Nc R Ne B C B']. destruct (separator_sep c Sc) as (vz & Sp). destruct (separator_sep c' Sc') as (vz' & Sp').
  destruct p as [y t0|]; [|discriminate]. inversion C as [x r t Tk Rp|]; subst.
  set (k := w ++ (y ++ r) ++ w' ++ [c'] ++ z). assert (K : no_close k) by (eapply cp_no_close; eassumption).
  destruct (open_read o O (v ++ k) TChildren) as (stack & n & E); [apply (run_no_close c v ps); assumption|].
  destruct (run_read c vz Sp v ps R k TChildren open_new stack K (or_introl eq_refl)) as (n2 & E2). rewrite Ls in E2.
  destruct (open_cons o O) as (o' & ->). cbn [tl app] in *. unfold t_content.
  change (after (s2b "EMPTY") ("("%char :: o' ++ v ++ k)) with (@None bytes). change (after (s2b "ANY") ("("%char :: o' ++ v ++ k)) with (@None bytes). cbv iota.
  rewrite (read_spec_text (n + (n2 + 1)) (o' ++ v ++ k) None); [reflexivity|]. intros f. replace (n + (n2 + 1) + f)%nat with (n + (n2 + S f))%nat by lia. rewrite E, E2.
  subst k. rewrite t_spec_blank by exact B. rewrite <- !app_assoc. destruct Tk as [Nx Tk]. destruct (sep_end c' vz' Sp') as [En _].
  apply (leaf_clash y r t0 w' c' vz' z TChildren _ stack f Nx (tok_word y Tk) Rp B' En). cbn [o_ty].
  destruct Sp as [[-> ->]|[-> ->]], Sp' as [[-> ->]|[-> ->]]; congruence || reflexivity.
Qed.
Lemma element_refuses w x w1 s l : gap1 w -> is_tok x -> gap1 w1 -> (exists h z, s = h :: z /\ white h = false) -> t_content s = Ok None ->
  t_element (str "<!ELEMENT" ++ w ++ x ++ w1 ++ s) l = Ok None.
Proof.
  intros W X W1 (h' & z' & E' & Wh') E. unfold t_element.
  match goal with |- context [skip (str "<!ELEMENT" ++ ?z)] => change (after (s2b "<!ELEMENT") (skip (str "<!ELEMENT" ++ z))) with (Some z) end. cbv iota.
  destruct (tok_head x X) as (h & y & Ex & Wh & _).
  rewrite (skip_gap w _ h (y ++ w1 ++ s)); [|apply W|rewrite Ex; reflexivity|exact Wh].
  destruct (until_el x w1 s X W1) as (r & U). rewrite U. change ((2 =? 0) || (2 =? 3)) with false. cbv iota.
  rewrite (skip_gap w1 _ h' z') by (apply W1 || assumption). rewrite E. reflexivity.
Qed.
Lemma element_again w x w1 b c w2 k l : gap1 w -> is_tok x -> gap1 w1 -> content_text b c -> blank w2 -> In x (map el_name (l_elements l)) ->
  t_element (str "<!ELEMENT" ++ w ++ x ++ w1 ++ b ++ w2 ++ ">"%char :: k) l = Ok None.
Proof.
  intros W X W1 C B I. destruct (content_ok b c w2 C B) as (ty & p & Rd & E0). destruct (E0 k) as (s & E & Sk). unfold t_element.
  match goal with |- context [skip (str "<!ELEMENT" ++ ?z)] => change (after (s2b "<!ELEMENT") (skip (str "<!ELEMENT" ++ z))) with (Some z) end. cbv iota.
  destruct (tok_head x X) as (h & y & Ex & Wh & _).
  rewrite (skip_gap w _ h (y ++ w1 ++ b ++ w2 ++ ">"%char :: k)); [|apply W|rewrite Ex; reflexivity|exact Wh].
  destruct (until_el x w1 (b ++ w2 ++ ">"%char :: k) X W1) as (r & U). rewrite U. change ((2 =? 0) || (2 =? 3)) with false. cbv iota.
  destruct (content_head b c (w2 ++ ">"%char :: k) C) as (h' & z' & E' & Wh').
  rewrite (skip_gap w1 _ h' z') by (apply W1 || assumption). rewrite E. cbn [bindo bind].
  rewrite (cstr_word x) by (apply tok_word, X).
  replace (existsb _ (l_elements l)) with true; [reflexivity|]. symmetry. apply existsb_exists. apply in_map_iff in I as (e & Ee & Ie). exists e. split; [exact Ie|].
  rewrite Ee. apply bytes_eqb_refl.
Qed.
Lemma parse_refuses text ds z : dtd_text text ds -> NoDup (map fst (elements_of ds)) -> (forall x, atts_good (atts_of ds x)) ->
  (forall l', holding ds l' -> t_element (str "<!ELEMENT" ++ z) l' = Ok None) ->
  exists n, forall fuel, (n <= fuel)%nat -> dtd_parse fuel (text ++ str "<!ELEMENT" ++ z) = Ok None.
Proof.
  intros D N G R. destruct (dtd_refuses text ds D z [] load_new holding_new N G R) as (n & E). exists n. intros fuel L. rewrite parse_text, E by exact L. reflexivity.
Qed.
Lemma clash_refused text ds w x w1 ps p s : dtd_text text ds -> NoDup (map fst (elements_of ds)) -> (forall x, atts_good (atts_of ds x)) ->
  gap1 w -> is_tok x -> gap1 w1 -> clash_text ps p s -> existsb is_leaf ps = true -> is_leaf p = true ->
  exists n, forall fuel, (n <= fuel)%nat -> dtd_parse fuel (text ++ str "<!ELEMENT" ++ w ++ x ++ w1 ++ s) = Ok None.
Proof.
  intros D N G W X W1 C Ls Lp. apply (parse_refuses text ds); try assumption. intros l _. apply element_refuses; try assumption; [|eapply clash_read; eassumption].
  destruct C as [o c v ps w0 b p w' c' z O]. destruct (open_cons o O) as (o' & ->). do 2 eexists. split; reflexivity.
Qed.
Lemma twice_refused text ds w x w1 b c c0 w2 k : dtd_text text ds -> NoDup (map fst (elements_of ds)) -> (forall x, atts_good (atts_of ds x)) ->
  gap1 w -> is_tok x -> gap1 w1 -> content_text b c -> blank w2 -> In (x, c0) (elements_of ds) ->
  exists n, forall fuel, (n <= fuel)%nat -> dtd_parse fuel (text ++ str "<!ELEMENT" ++ w ++ x ++ w1 ++ b ++ w2 ++ str ">" ++ k) = Ok None.
Proof.
  intros D N G W X W1 C B I. apply (parse_refuses text ds); try assumption. intros l H. change (str ">" ++ k) with (">"%char :: k). eapply element_again; try eassumption.
  rewrite (el_names _ _ (h_els _ _ H)). apply in_map_iff. exists (x, c0). auto.
Qed.

(** ** everything that is loaded *)
Definition has_att (l : load) (ty : at_type -> bool) : Prop := exists x a d, In (x, a) (l_attrs l) /\ In d a /\ ty (ad_type d) = true.
Record kept (l : load) : Prop := {
  k_els : NoDup (map el_name (l_elements l));
  k_lists : NoDup (map fst (l_attrs l));
  k_atts : forall x a, In (x, a) (l_attrs l) -> atts_good a;
  k_id : l_id l = true -> has_att l is_id_type;
  k_idref : has_att l is_ref_type -> l_idref l = true
}.
Lemma kept_new : kept load_new.
Proof. split; cbn; [constructor|constructor|intros x a []|discriminate|intros (x & a & d & [] & _)]. Qed.
Lemma element_kept s l s' l' : kept l -> t_element s l = Ok (Some (s', l')) -> kept l'.
Proof.
  intros [K1 K2 K3 K4 K5]. unfold t_element. destruct (after _ _) as [s1|]; [|discriminate]. destruct (until _ _) as [[[[x m] s2] s3]|]; [|discriminate].
  destruct (_ || _); [discriminate|]. destruct (t_content _) as [[[s4 [ty p]]|]| |]; cbn [bindo bind]; try discriminate.
  destruct (existsb _ _) eqn:Ex; [discriminate|]. destruct (_ =? 0); [discriminate|]. intros E. injection E as _ <-. split; cbn [l_elements l_attrs l_id l_idref]; try assumption.
  rewrite map_app. cbn [map el_name]. apply (Permutation.Permutation_NoDup (Permutation.Permutation_cons_append _ _)). constructor; [|exact K1].
  intros I. apply in_map_iff in I as (e & Ee & Ie). apply not_true_iff_false in Ex. apply Ex. apply existsb_exists. exists e. split; [exact Ie|]. rewrite Ee. apply bytes_eqb_refl.
Qed.
Lemma find_app_ {A} (f : A -> bool) l m : find f (l ++ m) = match find f l with Some x => Some x | None => find f m end.
Proof. induction l as [|x l IH]; [reflexivity|]. cbn [app find]. destruct (f x); [reflexivity|exact IH]. Qed.
Lemma good_more decls x ty df v : atts_good decls -> bad_id decls x ty df = false -> bad_enum ty v = false -> atts_good (decls ++ [AtDecl x ty df v]).
Proof.
  intros (G1 & G2 & G3) Bi Be.
  assert (Id : forall a, In a decls -> ad_type a = AId -> ty = AId -> ad_name a = x).
  { intros a I Ta ->. unfold bad_id in Bi. apply orb_false_iff in Bi as [Bi _]. rewrite find_app_ in Bi. destruct (find is_id decls) as [b|] eqn:F.
    - apply find_some in F as [Ib Tb]. apply negb_false_iff, bytes_eqb_eq in Bi. rewrite <- Bi. apply G1; try assumption. unfold is_id in Tb. destruct (ad_type b); congruence || reflexivity.
    - apply (find_none _ _ F) in I. unfold is_id in I. rewrite Ta in I. discriminate. }
  split; [|split].
  - intros a b Ia Ib Ta Tb. apply in_app_or in Ia as [Ia|[<-|[]]]; apply in_app_or in Ib as [Ib|[<-|[]]]; cbn [ad_name ad_type] in *.
    + apply G1; assumption.
    + apply Id; assumption.
    + symmetry. apply Id; assumption.
    + reflexivity.
  - intros a Ia Ta. apply in_app_or in Ia as [Ia|[<-|[]]]; [apply G2; assumption|]. cbn [ad_type ad_default] in *. subst ty. unfold bad_id in Bi. apply orb_false_iff in Bi as [_ Bi]. destruct df; congruence.
  - intros a vs u Ia Ta Va. apply in_app_or in Ia as [Ia|[<-|[]]]; [eapply G3; eassumption|]. cbn [ad_type ad_value] in *. subst ty v. unfold bad_enum in Be.
    apply negb_false_iff, existsb_exists in Be as (y & Iy & Ey). apply bytes_eqb_eq in Ey. subst y. exact Iy.
Qed.
Lemma atts_kept ents : forall f s decls id idref s' decls' id' idref', atts_good decls -> t_atts f ents s decls id idref = Ok (Some (s', (decls', id', idref'))) ->
  atts_good decls' /\ (exists more, decls' = decls ++ more) /\ (id' = true -> id = true \/ exists d, In d decls' /\ is_id_type (ad_type d) = true) /\
  (forall d, In d decls' -> is_ref_type (ad_type d) = true -> In d decls \/ idref' = true) /\ (idref = true -> idref' = true).
Proof.
  induction f as [|f IH]; intros s decls id idref s' decls' id' idref' G; [discriminate|]. cbn [t_atts]. destruct (after _ _) as [s1|].
  { intros E. injection E as _ <- <- <-. split; [exact G|]. split; [exists []; rewrite app_nil_r; reflexivity|]. auto. }
  destruct (until _ _) as [[[[x m] s2] s3]|]; [|discriminate]. destruct (t_expand _ _) as [s4|]; [|discriminate].
  destruct (t_att_type s4) as [[[s5 ty]|]| |]; cbn [bindo bind]; try discriminate. destruct (t_default _) as [[s6 df]|]; [|discriminate].
  destruct (bad_id _ _ _ _) eqn:Bi; [discriminate|]. destruct (t_value _) as [s7 value]. destruct (bad_enum _ _) eqn:Be; [discriminate|]. intros E.
  pose proof (good_more _ _ _ _ _ G Bi Be) as G'. destruct (IH _ _ _ _ _ _ _ _ G' E) as (H1 & (more & H2) & H3 & H4 & H5). split; [exact H1|]. split.
  { eexists. rewrite H2, <- app_assoc. reflexivity. }
  split; [|split].
  - intros Q. destruct (H3 Q) as [Q'|Q']; [|right; exact Q']. unfold flag_id in Q'. apply orb_true_iff in Q' as [Q'|Q']; [left; exact Q'|]. right.
    eexists. split; [rewrite H2; apply in_or_app; left; apply in_or_app; right; left; reflexivity|]. cbn [ad_type]. destruct ty; congruence || reflexivity.
  - intros d I T. destruct (H4 d I T) as [I'|Q]; [|right; exact Q]. apply in_app_or in I' as [I'|[<-|[]]]; [left; exact I'|]. right. apply H5. cbn [ad_type] in T.
    apply orb_true_iff. right. destruct ty; try discriminate; try reflexivity. destruct k; try discriminate; reflexivity.
  - intros Q. apply H5. rewrite Q. reflexivity.
Qed.
Lemma decls_good l x : kept l -> atts_good (decls_of (l_attrs l) x).
Proof.
  intros K. unfold decls_of. destruct (find _ _) as [[y a]|] eqn:F; [|repeat split; intros a b; intros; contradiction]. apply find_some in F as [I _]. eapply k_atts; eassumption.
Qed.
Lemma attlist_kept f s l s' l' : kept l -> t_attlist f s l = Ok (Some (s', l')) -> kept l'.
Proof.
  intros K. unfold t_attlist. destruct (until _ _) as [[[[x m] s2] s3]|]; [|discriminate].
  destruct (t_atts _ _ _ _ _ _) as [[[s4 [[decls id] idref]]|]| |] eqn:E; cbn [bindo bind]; try discriminate. intros Q. injection Q as _ <-.
  destruct (atts_kept _ _ _ _ _ _ _ _ _ _ (decls_good l (cstr x) K) E) as (H1 & (more & H2) & H3 & H4 & H5). set (y := cstr x) in *. pose proof K as [K1 K2 K3 K4 K5].
  assert (Old : forall z a, In (z, a) (l_attrs l) -> z = y -> a = decls_of (l_attrs l) y).
  { intros z a I ->. unfold decls_of. destruct (find _ _) as [[y' a']|] eqn:F.
    - apply find_some in F as [I' E']. cbn [fst] in E'. apply bytes_eqb_eq in E'. subst y'. clear -I I' K2. induction (l_attrs l) as [|[z c] r IH]; [destruct I|]. cbn [map fst] in K2. inversion K2 as [|? ? N1 N2]; subst.
      destruct I as [I|I], I' as [I'|I'].
      + congruence.
      + injection I as -> ->. destruct N1. apply in_map_iff. exists (y, a'). auto.
      + injection I' as -> ->. destruct N1. apply in_map_iff. exists (y, a). auto.
      + apply IH; assumption.
    - apply (find_none _ _ F) in I. cbn [fst] in I. rewrite bytes_eqb_refl in I. discriminate. }
  assert (In_new : In (y, decls) (put_attr (l_attrs l) y decls)) by (apply put_in; [exact K2|left; auto]).
  split; cbn [l_elements l_attrs l_id l_idref].
  - exact K1.
  - rewrite put_keys. destruct (existsb (bytes_eqb y) (map fst (l_attrs l))) eqn:Ex; [exact K2|].
    apply (Permutation.Permutation_NoDup (Permutation.Permutation_cons_append _ _)). constructor; [|exact K2]. intros I.
    apply not_true_iff_false in Ex. apply Ex. apply existsb_exists. exists y. split; [exact I|apply bytes_eqb_refl].
  - intros z a I. apply put_in in I; [|exact K2]. destruct I as [[-> ->]|[_ I]]; [exact H1|eapply K3; exact I].
  - intros Q. destruct (H3 Q) as [Q'|(d & Id & Td)].
    + destruct (K4 Q') as (z & a & d & I & Id & Td). destruct (list_eq_dec ascii_dec z y) as [Ez|Nz].
      * exists y, decls, d. split; [exact In_new|]. split; [|exact Td]. rewrite H2. apply in_or_app. left. rewrite <- (Old z a I Ez). exact Id.
      * exists z, a, d. split; [apply put_in; [exact K2|right; auto]|auto].
    + exists y, decls, d. auto.
  - intros (z & a & d & I & Id & Td). cbn [l_attrs] in I. apply put_in in I; [|exact K2]. destruct I as [[-> ->]|[_ I]].
    + destruct (H4 d Id Td) as [I'|Q]; [|exact Q]. apply H5, K5. unfold decls_of in I'. destruct (find _ _) as [[y' a']|] eqn:F; [|destruct I'].
      apply find_some in F as [I2 _]. exists y', a', d. auto.
    + apply H5, K5. exists z, a, d. auto.
Qed.
Lemma entity_kept s l s' l' : kept l -> t_entity s l = Some (s', l') -> kept l'.
Proof.
  intros [K1 K2 K3 K4 K5]. unfold t_entity. destruct (after _ _) as [s1|]; [|discriminate]. destruct (match after _ _ with Some _ => _ | None => _ end) as [s2 ty].
  destruct (until _ _) as [[[[x m] s3] s4]|]; [|discriminate]. destruct (t_which _ _ _) as [s5 [q|]]; [|discriminate]. destruct (match q with Some _ => _ | None => _ end) as [s6 content].
  destruct (after _ _) as [s7|]; [|discriminate]. intros E. injection E as _ <-. split; assumption.
Qed.
Lemma dtd_kept : forall f s l it s' l', kept l -> t_dtd f s l it = Ok (Some (s', l')) -> kept l'.
Proof.
  induction f as [|f IH]; intros s l it s' l' K; [discriminate|]. destruct s as [|c s]; [intros E; injection E as _ <-; exact K|]. rewrite dtd_t_S by discriminate.
  destruct (a_comments _ _) as [[s1 d]|]; [|discriminate]. destruct (after (s2b "<!ELEMENT") s1).
  { destruct (t_element s1 l) as [[[s2 l2]|]| |] eqn:E; cbn [bindo bind]; try discriminate. apply IH. eapply element_kept; eassumption. }
  destruct (after (s2b "<!ATTLIST") s1) as [s3|].
  { destruct (t_attlist f s3 l) as [[[s2 l2]|]| |] eqn:E; cbn [bindo bind]; try discriminate. apply IH. eapply attlist_kept; eassumption. }
  destruct (after (s2b "<!ENTITY") s1).
  { destruct (t_entity s1 l) as [[s2 l2]|] eqn:E; cbn [bindo bind]; try discriminate. apply IH. eapply entity_kept; eassumption. }
  destruct (it =? 3); [discriminate|]. apply IH, K.
Qed.
Lemma pass_in fuel els : forall l r ch r' ch', In r els -> (forall e, In e l -> In e els) -> root_pass fuel l r ch = Ok (r', ch') -> In r' els.
Proof.
  induction l as [|e l IH]; intros r ch r' ch' Ir Il; cbn [root_pass]; [intros E; injection E as <- _; exact Ir|].
  assert (forall e', In e' l -> In e' els) as Il' by (intros; apply Il; right; assumption).
  destruct (is_parent fuel e r) as [[|]| |]; cbn [bind]; try discriminate; apply IH; try assumption. apply Il. left. reflexivity.
Qed.
Lemma root_in pfuel els : forall fuel r r', In r els -> root_loop fuel pfuel els r = Ok r' -> In r' els.
Proof.
  induction fuel as [|fuel IH]; intros r r' I; [discriminate|]. cbn [root_loop]. destruct (root_pass pfuel els r false) as [[r2 []]| |] eqn:E; cbn [bind]; try discriminate.
  - apply IH. eapply pass_in; [exact I| |exact E]. auto.
  - intros Q. injection Q as <-. eapply pass_in; [exact I| |exact E]. auto.
Qed.
Lemma load_kept fuel content d ents : dtd_parse fuel content = Ok (Some (d, ents)) -> well_kept d.
Proof.
  rewrite parse_text. destruct (t_dtd fuel content load_new 0) as [[[s l]|]| |] eqn:E; try discriminate. pose proof (dtd_kept _ _ _ _ _ _ kept_new E) as [K1 K2 K3 K4 K5].
  unfold finish. destruct (match l_elements l with [] => _ | _ => _ end) as [root| |] eqn:R; cbn [bind]; try discriminate.
  destruct (negb (l_id l) && l_idref l) eqn:F; [discriminate|]. intros Q. injection Q as <- _. split; cbn [d_elements d_attrs d_top]; try assumption.
  - intros H. apply K5 in H. rewrite H, andb_true_r in F. apply negb_false_iff in F. apply K4, F.
  - destruct (l_elements l) as [|e es]; [injection R as <-; reflexivity|]. destruct (new_root fuel fuel (e :: es)) as [r| |] eqn:N; cbn [bind] in R; try discriminate. injection R as <-.
    unfold new_root in N. eapply root_in; [|exact N]. left. reflexivity.
Qed.
