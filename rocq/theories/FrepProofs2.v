(** Over a file, the parser with its book does what the parser does (C60). *)
From Coq Require Import Permutation Lia.
From Verif Require Import Prelude StrModel StrSpec StrProofs AttrModel TreeModel StreamModel StreamProofs ParseModel ParseProofs ParseProofs2 XmlSpec
  FsafeProofs FsafeProofs2 FsafeProofs3.
From Verif Require Import RepModel RepSpec FrepSpec RepProofs RepProofs2 RepProofs3 RepProofs4 RepProofs5 RepProofs6 FwinProofs FrepProofs.
Open Scope Z_scope.
Local Arguments Z.of_nat : simpl never.
Local Arguments Z.to_nat : simpl never.
Local Arguments Z.add : simpl never.
Local Arguments Z.sub : simpl never.
Local Arguments Z.eqb : simpl never.
Local Arguments Z.ltb : simpl never.
Local Arguments Z.leb : simpl never.

Ltac short10 := cbn; lia.
Ltac kept := match goal with
  | E : stream_peek ?s ?c = Ok _, K : fits _ ?s |- _ => let X := fresh "X" in let K' := fresh "K" in let Y := fresh "Y" in
      destruct (peek_fits s c _ _ K ltac:(sld) ltac:(short10) E) as (X & Y); pose proof (exactly_fits _ X) as K'; clear E
  | E : stream_inspect ?s ?c = Ok _, K : fits _ ?s |- _ => let K' := fresh "K" in
      pose proof (inspect_fits s c _ _ K ltac:(sld) ltac:(short10) E) as K'; clear E
  | E : stream_remains ?s = Ok _, K : fits _ ?s |- _ => let K' := fresh "K" in pose proof (exactly_fits _ (remains_fits _ _ _ K E)) as K'; clear E
  | E : consume_spaces ?s = Ok _, K : fits _ ?s |- _ => let K' := fresh "K" in pose proof (exactly_fits _ (spaces_fits _ _ K E)) as K'; clear E
  end.
Ltac next2 := apply frel_bind; let st := fresh "st" in let v := fresh "v" in let E := fresh "E" in intros [st v] E; cbv beta iota; try kept.
Ltac next1 := apply frel_bind; let st := fresh "st" in let E := fresh "E" in intros st E; cbv beta iota; kept.
Ltac nexte := apply frel_bind; let x := fresh "x" in let E := fresh "E" in intros x E; cbv beta iota; clear E.
Ltac failing := eapply frel_fail; [eassumption|try eassumption; try discriminate|eassumption].
Ltac chunk := repeat (constructor; [split; [sld|short10]|]); constructor.
Ltac al := match goal with K : fits _ ?s |- alive _ ?s => exact (proj1 K) end.

Section S.
Context {content : bytes}.
Lemma pi_frel w m st d : still w false m -> fits content st ->
  frel content (still w false) fst (consume_pi m st d) (ParseModel.consume_pi st d).
Proof.
  intros (p & Np & H) K. unfold consume_pi, ParseModel.consume_pi. next2.
  destruct (0 <? v); [|apply frel_same; trivial; exists p; tauto]. cbv zeta. specialize (Y eq_refl).
  eapply frel_until; [exact H|exact Np|al|gc|]. intros m1 p1 st1 o H1 O K2.
  destruct o as [[t mt]|]; [|destruct O as (-> & ->); failing].
  destruct O as (x & ->).
  destruct (take m1) as [m2 c] eqn:T.
  assert (H2 : idle w false (Some (Heap x)) m2 [c]).
  { destruct (take_idle _ _ _ _ _ H1) as (A & B). rewrite T in *. cbn in A, B. subst c. exact A. }
  nexte. destruct x0 as [|].
  { eapply frel_release; [exact H2|]. intros m3 H3. failing. }
  eapply frel_release; [exact H2|]. intros m3 H3.
  destruct ((mt =? 0) || (mt =? 1)).
  { apply frel_same; trivial. exists (Some (Heap x)). split; [discriminate|trivial]. }
  destruct (mt =? 2); [|failing].
  destruct (take m3) as [m4 c'] eqn:T'.
  assert (H4 : idle w false (Some (Heap x)) m4 [c']).
  { destruct (take_idle _ _ _ _ _ H3) as (A & B). rewrite T' in *. cbn in A, B. subst c'. exact A. }
  eapply frel_until; [exact H4|discriminate|al|gc|]. intros m5 p5 st5 o H5 O K5.
  destruct o as [[t5 mt5]|].
  - destruct O as (y & ->). eapply frel_release; [exact H5|]. intros m6 H6. apply frel_same; trivial.
    exists (Some (Heap y)). split; [discriminate|trivial].
  - destruct O as (-> & ->). eapply frel_release; [exact H5|]. intros m6 H6. failing.
Qed.

Lemma comments_frel w : forall f m st d, still w false m -> fits content st ->
  frel content (still w false) fst (comments_loop f m st d) (ParseModel.comments_loop f st d).
Proof.
  induction f as [|f IH]; intros m st d (p & Np & H) K; [reflexivity|]. cbn [comments_loop ParseModel.comments_loop].
  next1. next2.
  eapply (frel_bindm (content := content) (still w false) (still w false) fst (fun x : stream * pdoc * bool => fst (fst x))).
  { destruct (0 <? v); [|apply frel_same; trivial; exists p; tauto].
    eapply frel_until_ref; [exact H|exact Np|al|gc|]. intros m1 p1 st2 o H1 O K2.
    destruct o as [[t mt]|]; [|failing]. apply frel_same; trivial. exists p1; tauto. }
  intros m1 [[st2 d2] fo] (p1 & Np1 & H1) K2. cbn [fst] in *. next1.
  apply frel_bind. intros [st4 v4] E4. cbv beta iota.
  assert (K4 : fits content st4).
  { destruct (p_header d2); [kept; trivial|]. injection E4 as <- _. trivial. }
  eapply (frel_bindm (content := content) (still w false) (still w false) fst (fun x : stream * pdoc * bool => fst (fst x))).
  { destruct (0 <? v4); [|apply frel_same; trivial; exists p1; tauto].
    eapply frel_bindm; [apply (pi_frel w); trivial; exists p1; tauto|]. intros m3 [st5 d5] S3 K5. cbv beta iota. apply frel_same; trivial. }
  intros m3 [[st5 d5] fo5] S3 K5. cbn [fst] in *. destruct fo5; [apply IH; trivial|].
  next1. apply frel_same; trivial.
Qed.
Lemma consume_frel w m st d : still w false m -> fits content st ->
  frel content (still w false) fst (consume_comments m st d) (ParseModel.consume_comments st d).
Proof. apply comments_frel. Qed.

Lemma copy_frel {A} w I (P : A -> stream) m d f' f : still w false m ->
  (forall m', still w false m' -> frel content I P (f' m') f) ->
  frel content I P (bind (copy_encoding m d) f') (bind (ParseModel.configure_encoding d) (fun _ => f)).
Proof.
  intros (p & Np & H) R. unfold copy_encoding, ParseModel.configure_encoding. destruct (p_encoding d) as [e|] eqn:E; [|apply R; exists p; tauto].
  destruct (take m) as [m2 c] eqn:T.
  assert (H2 : idle w false p m2 [c]).
  { destruct (take_idle _ _ _ _ _ H) as (A0 & B). rewrite T in *. cbn in A0, B. subst c. exact A0. }
  match goal with |- context [bind ?e (fun _ => release m2 c)] => destruct e as [x| |] end; cbn [bind]; [|reflexivity|reflexivity].
  eapply frel_release; [exact H2|]. intros m3 H3. apply R. exists p; tauto.
Qed.

Lemma header_frel w m st d : still w false m -> fits content st -> p_header d = false ->
  (forall b, stream_check st ["239"; "187"; "191"]%char = Ok b -> b = true -> fits content (stream_move st 3)) ->
  frel content (still w false) fst (parse_xml_header m st d) (ParseModel.parse_xml_header st d).
Proof.
  intros S K Hd Bom. unfold parse_xml_header, ParseModel.parse_xml_header. rewrite Hd.
  apply frel_bind. intros bom E. cbv zeta.
  set (st0 := if (bom : bool) then stream_move st 3 else st).
  assert (K0 : fits content st0) by (unfold st0; destruct bom; [exact (Bom _ E eq_refl)|exact K]).
  clearbody st0. next2.
  eapply (frel_bindm (content := content) (still w false) (still w false) fst fst).
  - destruct (v =? 0); [apply frel_same; trivial|].
    destruct S as (p & Np & H). next2. destruct (negb (0 <? v0)); [failing|]. next1. next2.
    destruct (v1 =? 0); [failing|]. next1. next2. apply (several_fits (content := content)) in E0; [|chunk|assumption].
    destruct (v2 =? 0); [failing|]. next1. next2. apply (several_fits (content := content)) in E1; [|chunk|assumption].
    eapply (frel_bindm (content := content) (still w false) (still w false) fst fst).
    { destruct (0 <? v3); [|apply frel_same; trivial; exists p; tauto].
      eapply frel_until; [exact H|exact Np|al|unfold quotes; gc|]. intros m1 p1 sa o H1 O Ka.
      destruct o as [[t mt]|]; [|destruct O as (-> & ->); failing]. destruct O as (x & ->).
      rewrite (idle_touch _ _ _ _ _ H1). cbn [bind]. destruct (keep_encoding_ok _ _ _ H1) as (m2 & -> & H2). cbn [bind].
      apply frel_same; trivial. exists None; split; [discriminate|trivial]. }
    intros m1 [sa d8] (p1 & Np1 & H1) Ka. cbn [fst] in *. next1. next2.
    assert (A : alive content st10). { eapply several_alive; [|exact (proj1 K7)|exact E2]. constructor; [sld|constructor; [sld|constructor]]. }
    destruct (0 <? v4) eqn:V4.
    + eapply (frel_bindm (content := content) (still w false) (still w false) fst fst).
      { eapply frel_until; [exact H1|exact Np1|exact A|unfold quotes; gc|]. intros m2 p2 sb o H2 O Kb.
        destruct o as [[t mt]|]; [|destruct O as (-> & ->); failing]. destruct O as (x & ->).
        nexte. apply frel_same; trivial. exists (Some (Heap x)); split; [discriminate|trivial]. }
      intros m2 [sb d11] (p2 & Np2 & H2) Kb. cbn [fst] in *. next1. next2.
      destruct (negb (0 <? v5)); [failing|]. apply (consume_frel w); trivial. exists p2; tauto.
    + cbn [bindm bindo]. apply frel_bind. intros sx Ex.
      assert (Kx : fits content sx).
      { destruct A as ((s9 & m9 & L9) & W9). destruct (spaces_live _ _ _ L9) as (sy & s1 & mm & E9 & _ & _ & _ & (b & N) & _).
        pose proof (spaces_window _ _ _ W9 E9). rewrite E9 in Ex. injection Ex as <-. apply exactly_fits. split; [exists s1, b; exact N|assumption]. }
      next2. destruct (negb (0 <? v5)); [failing|]. apply (consume_frel w); trivial. exists p1; tauto.
  - intros m1 [sc d2] S1 Kc. cbn [fst] in *. cbv beta iota. apply (copy_frel w); trivial. intros m2 S2. next2.
    destruct (0 <? v0); [|apply frel_same; trivial]. destruct S2 as (p & Np & H).
    eapply frel_until_ref; [exact H|exact Np|al|gc|]. intros m3 p3 sd o H3 O Kd.
    apply (consume_frel w); trivial. exists p3; tauto.
Qed.

Lemma attrs_frel w : forall f m st d a p, idle w true p m [] -> p <> Some Pool -> fits content st ->
  frel content (still w false) of4 (attrs_loop f m st d a) (ParseModel.attrs_loop f st d a).
Proof.
  induction f as [|f IH]; intros m st d a p H Np K; [reflexivity|]. cbn [attrs_loop ParseModel.attrs_loop].
  next2. destruct (0 <? v).
  { eapply frel_alloc; [exact H|]. intros m1 H1. apply frel_same; trivial. exists p; tauto. }
  next2. destruct (0 <? v0).
  { eapply frel_alloc; [exact H|]. intros m1 H1. apply frel_same; trivial. exists p; tauto. }
  next1. eapply frel_until; [exact H|exact Np|al|gc|]. intros m1 p1 sa o H1 O Ka.
  destruct o as [[t mt]|]; [|destruct O as (-> & ->); failing]. subst p1.
  eapply frel_nullify; [exact H1|]. intros m2 H2. cbn [heap_of app] in H2. cbv zeta.
  destruct (cstr t) as [|c t']; [failing|]. set (name := c :: t').
  assert (Rest : forall sb delim, delim = "034"%char \/ delim = "039"%char -> fits content sb ->
    frel content (still w false) of4
      ('(m, st, o) <- take_until m2 sb true [[delim]] ;;
       m <- nullify m ;;
       let value := match o with None => None | Some (t, _) => Some (cstr t) end in
       h <- has_attribute a name ;;
       if (h : bool) then
         m <- error_report m st (-3) (s2b "Unable to add attribute '%s' to node <%s> which already has this attribute. Duplicate attribute error. Error was found near to: %s") ;;
         m <- stream_free m ;; Ok (m, None)
       else
         '(a, _) <- set_attribute_core a name value true ;;
         p <- preserve_push (p_preserve d) name value ;;
         match p with
         | None => fail m st (-2) (s2b "xml:space attribute found with other value than 'preserve' or 'default', this is not allowed.")
         | Some l =>
           st <- consume_spaces st ;;
           attrs_loop f m st (with_preserve d l) a
         end)
      ('(st, o) <- get_until sb true [[delim]] ;;
       let value := match o with None => None | Some (t, _) => Some (cstr t) end in
       h <- has_attribute a name ;;
       if (h : bool) then Ok None
       else
         '(a, _) <- set_attribute_core a name value true ;;
         p <- preserve_push (p_preserve d) name value ;;
         match p with
         | None => Ok None
         | Some l =>
           st <- consume_spaces st ;;
           ParseModel.attrs_loop f st (with_preserve d l) a
         end)).
  { intros sb delim Q Kb.
    eapply frel_until; [exact H2|discriminate|al|exact (good_quote delim Q)|]. intros m4 p4 sc o H4 O Kc.
    eapply frel_nullify; [exact H4|]. intros m5 H5.
    assert (H5' : idle w true None m5 []).
    { destruct o as [o|]; [subst p4; exact H5|destruct O as (-> & ->); exact H5]. }
    clear H5. cbv zeta. nexte. destruct x.
    { match goal with |- context [error_report m5 sc (-3) ?t] =>
        destruct (@report_there content (stream * pdoc * attrs * bool) w true None m5 sc (-3) t H5' Kc ltac:(discriminate)) as (m' & -> & T) end. split; [reflexivity|exact T]. }
    apply frel_bind. intros [a' u] _. cbv beta iota. nexte. destruct x as [l|]; [|failing].
    next1. eapply IH; [exact H5'|discriminate|assumption]. }
  next2. destruct (0 <? v1).
  { cbn [bindm bindo]. apply Rest; auto. }
  destruct (stream_inspect st3 ["039"%char]) as [[sq v2]| |] eqn:E3; cbn [bind bindm bindo]; try reflexivity. kept.
  destruct (0 <? v2); cbn [bindm bindo]; [apply Rest; auto|].
  destruct (set_alloc_ok _ _ _ _ _ false H2) as (m3 & -> & H3). cbn [bind].
  match goal with |- context [fail m3 sq ?c ?t] => destruct (@fail_there content (stream * ascii) _ _ _ _ _ sq c t H3 ltac:(assumption) ltac:(discriminate)) as (m' & -> & T) end.
  split; [reflexivity|exact T].
Qed.

Lemma node_frel w m st d : still w false m -> fits content st ->
  frel content (still w false) of3 (parse_node m st d) (ParseModel.parse_node st d).
Proof.
  intros S K. unfold parse_node, ParseModel.parse_node.
  eapply frel_bindm; [apply (consume_frel w); trivial|]. intros m1 [sa da] (p & Np & H) Ka. cbn [fst] in *. cbv beta iota.
  next2. apply frel_bind. intros [sb go] E. cbv beta iota.
  assert (Kb : fits content sb).
  { destruct (0 <? v); [injection E as <- _; trivial|]. kept. trivial. }
  clear E. destruct go; cbn [negb]; [|failing].
  eapply frel_alloc; [exact H|]. intros m2 H2.
  eapply frel_until; [exact H2|exact Np|al|gc|]. intros m3 p3 sc o H3 O Kc.
  eapply frel_nullify; [exact H3|]. intros m4 H4.
  destruct o as [[t mt]|].
  2:{ destruct O as (-> & ->). eapply frel_alloc; [exact H4|]. intros m5 H5.
      eapply frel_fail; [exact H5|discriminate|eassumption]. }
  subst p3. cbn [heap_of app] in H4. cbv zeta. destruct (cstr t) as [|c t'].
  { eapply frel_alloc; [exact H4|]. intros m5 H5. failing. }
  set (name := c :: t').
  eapply (frel_bindm (content := content) (still w false) (still w false) of3 of5).
  - destruct (mt =? 1).
    + next1. eapply frel_bindm; [eapply attrs_frel; [exact H4|discriminate|assumption]|].
      intros m5 [[[sd dd] ad] e] S5 Kd. cbv beta iota. apply frel_same; trivial.
    + nexte. eapply frel_alloc; [exact H4|]. intros m5 H5.
      destruct (Ascii.eqb _ _); apply frel_same; trivial; exists None; split; trivial; discriminate.
  - intros m5 [[[[sd dd] ad] nm] e] S5 Kd. cbv beta iota. unfold of5 in Kd; cbn [fst] in Kd.
    destruct e; apply frel_same; trivial.
Qed.

Lemma close_frel w m st d : still w false m -> fits content st ->
  frel content (fun m => still w false m /\ p_stack d <> []) (fun x => x) (parse_close_node m st d) (ParseModel.parse_close_node st d).
Proof.
  intros (p & Np & H) K. unfold parse_close_node, ParseModel.parse_close_node.
  eapply frel_until_ref; [exact H|exact Np|al|gc|]. intros m1 p1 sa o H1 Np1 Ka.
  destruct o as [[t mt]|]; [|failing]. nexte. cbv zeta. destruct (p_stack d) as [|n r]; [failing|]. nexte.
  destruct x0; [|failing]. apply frel_same; trivial. split; [exists p1; tauto|discriminate].
Qed.

Lemma content_frel w : forall f m st d, still w false m -> fits content st ->
  frel content (still w false) fst (content_loop f m st d) (ParseModel.content_loop f st d).
Proof.
  induction f as [|f IH]; intros m st d S K; [reflexivity|]. cbn [content_loop ParseModel.content_loop].
  next2. destruct v; cbn [negb]; [|apply frel_same; trivial]. cbv zeta.
  apply frel_bind. intros sa E. assert (Ka : fits content sa).
  { destruct (hd false (p_preserve d)); [injection E as <-; trivial|]. kept. trivial. }
  clear E. next2. apply frel_bind. intros [sb v2] E. cbv beta iota.
  assert (Kb : fits content sb).
  { destruct (0 <? v); [injection E as <- _; trivial|]. kept. trivial. }
  clear E. destruct ((0 <? v) || (0 <? v2)).
  { eapply frel_bindm; [apply (consume_frel w); trivial|]. intros m1 [sc dc] S1 Kc. apply IH; trivial. }
  clear X Y. next2. destruct (0 <? v0).
  { specialize (Y eq_refl). pose proof (close_frel w m (stream_accept st2) d S Y) as C.
    destruct (parse_close_node m (stream_accept st2) d) as [[m1 [sc|]]| |]; cbn [frel bindm] in C |- *.
    - destruct C as (-> & (S1 & Ns) & Kc). destruct (p_stack d) as [|n r]; [congruence|].
      destruct r as [|n' r]; [apply frel_same; trivial|]. apply IH; trivial.
    - destruct C as (-> & T). split; [reflexivity|exact T].
    - rewrite C. reflexivity.
    - rewrite C. reflexivity. }
  clear X Y. next2. destruct (0 <? v1).
  { specialize (Y eq_refl). destruct S as (p & Np & H). eapply frel_alloc; [exact H|]. intros m1 H1.
    eapply frel_until; [exact H1|exact Np|al|gc|]. intros m2 p2 sc o H2 O Kc.
    eapply frel_alloc; [exact H2|]. intros m3 H3.
    destruct o as [[t mt]|]; [|destruct O as (-> & ->); failing]. subst p2.
    eapply frel_nullify; [exact H3|]. intros m4 H4. apply IH; trivial. exists None; split; [discriminate|exact H4]. }
  clear X Y. next2. destruct (0 <? v3).
  { specialize (Y eq_refl). eapply frel_bindm; [apply (node_frel w); trivial|]. intros m1 [[sc dc] e] S1 Kc. cbv beta iota. apply IH; trivial. }
  destruct S as (p & Np & H).
  set (se := if s_idx st0 <? s_idx st4 then stream_move st4 (s_idx st0) else st4).
  assert (Ke : fits content se).
  { apply exactly_fits. unfold se. destruct (Z.ltb_spec (s_idx st0) (s_idx st4)); [|trivial]. apply exactly_back; trivial.
    destruct (alive_facts (content := content) st0) as (A & _); [al|exact A]. }
  clearbody se. eapply frel_alloc; [exact H|]. intros m1 H1.
  eapply frel_until; [exact H1|exact Np|al|gc|]. intros m2 p2 sc o H2 O Kc.
  eapply frel_alloc; [exact H2|]. intros m3 H3.
  destruct o as [[t mt]|]; [|destruct O as (-> & ->); failing]. subst p2.
  eapply frel_nullify; [exact H3|]. intros m4 H4. apply IH; trivial. exists None; split; [discriminate|exact H4].
Qed.
End S.
