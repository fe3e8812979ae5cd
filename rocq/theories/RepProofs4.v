(** The parser with its book follows the parser: instructions, comments, the declaration (C60). *)
From Coq Require Import Permutation Lia.
From Verif Require Import Prelude StrModel AttrModel TreeModel StreamModel ParseModel RepModel RepProofs RepProofs2 RepProofs3.
Open Scope Z_scope.

Ltac keep E := match type of E with keeps ?s ?s' =>
  let K' := fresh "K" in let F' := fresh "F" in
  match goal with K : ok ?z s, F : fd s = ?k |- _ =>
    assert (K' : ok z s') by (apply E; exact K); assert (F' : fd s' = k) by (rewrite (proj1 E); exact F); clear E end end.
Ltac kept := match goal with
  | E : stream_peek _ _ = Ok _ |- _ => apply inspect_keeps in E; keep E
  | E : stream_inspect _ _ = Ok _ |- _ => apply inspect_keeps in E; keep E
  | E : stream_inspect_several _ _ = Ok _ |- _ => apply several_keeps in E; keep E
  | E : stream_remains _ = Ok _ |- _ => apply remains_keeps in E; keep E
  | E : consume_spaces _ = Ok _ |- _ => apply spaces_keeps in E; keep E
  end.
(** the stream moved by accept *)
Ltac accepted st := let E := fresh "E" in pose proof (accept_keeps st) as E; keep E.
Ltac next2 := apply rel_bind; let st := fresh "st" in let v := fresh "v" in let E := fresh "E" in intros [st v] E; cbv beta iota; kept.
Ltac next1 := apply rel_bind; let st := fresh "st" in let E := fresh "E" in intros st E; cbv beta iota; kept.
Ltac nexte := apply rel_bind; let x := fresh "x" in let E := fresh "E" in intros x E; cbv beta iota; clear E.
Ltac failing := eapply rel_fail; [eassumption|try eassumption; try discriminate|eassumption|eassumption|lia|cbn; lia|congruence].

Lemma rel_release {A} w sz I k (P : A -> stream) b p m x e f' r : idle w b p m (x :: e) -> (forall m', idle w b p m' e -> rel w sz I k P (f' m') r) ->
  rel w sz I k P (bind (release m x) f') r.
Proof. intros H R. destruct (release_idle _ _ _ _ _ _ H) as (m' & -> & H'). cbn [bind]. auto. Qed.
Lemma rel_nullify {A} w sz I k (P : A -> stream) b p m e f' r : idle w b p m e -> (forall m', idle w b None m' (heap_of p ++ e) -> rel w sz I k P (f' m') r) ->
  rel w sz I k P (bind (nullify m) f') r.
Proof. intros H R. destruct (nullify_ok _ _ _ _ _ H) as (m' & -> & H'). cbn [bind]. auto. Qed.
Lemma rel_alloc {A} w sz I k (P : A -> stream) b c p m e f' r : idle w b p m e -> (forall m', idle w c p m' e -> rel w sz I k P (f' m') r) ->
  rel w sz I k P (bind (set_alloc m c) f') r.
Proof. intros H R. destruct (set_alloc_ok _ _ _ _ _ c H) as (m' & -> & H'). cbn [bind]. auto. Qed.
Lemma rel_same {A} w sz (I : book -> Prop) k (P : A -> stream) m x : I m -> ok sz (P x) -> fd (P x) = k -> rel w sz I k P (Ok (m, Some x)) (Ok (Some x)).
Proof. intros. cbn [rel]. auto. Qed.

Lemma pi_rel w sz k m st d : still w false m -> ok sz st -> fd st = k ->
  rel w sz (still w false) k fst (consume_pi m st d) (ParseModel.consume_pi st d).
Proof.
  intros (p & Np & H) K F. unfold consume_pi, ParseModel.consume_pi. next2.
  destruct (0 <? v); [|apply rel_same; trivial; exists p; tauto]. cbv zeta. accepted st0.
  eapply rel_until; [exact H|exact Np|eassumption|eassumption|]. intros m1 p1 st1 o H1 O K2 F2.
  destruct o as [[t mt]|]; [|destruct O as (-> & ->); failing].
  destruct O as (x & ->).
  destruct (take m1) as [m2 c] eqn:T.
  assert (H2 : idle w false (Some (Heap x)) m2 [c]).
  { destruct (take_idle _ _ _ _ _ H1) as (A & B). rewrite T in *. cbn in A, B. subst c. exact A. }
  nexte. destruct x0 as [|].
  { eapply rel_release; [exact H2|]. intros m3 H3. failing. }
  eapply rel_release; [exact H2|]. intros m3 H3.
  destruct ((mt =? 0) || (mt =? 1)).
  { apply rel_same; trivial. exists (Some (Heap x)). split; [discriminate|trivial]. }
  destruct (mt =? 2); [|failing].
  destruct (take m3) as [m4 c'] eqn:T'.
  assert (H4 : idle w false (Some (Heap x)) m4 [c']).
  { destruct (take_idle _ _ _ _ _ H3) as (A & B). rewrite T' in *. cbn in A, B. subst c'. exact A. }
  eapply rel_until; [exact H4|discriminate|eassumption|eassumption|]. intros m5 p5 st5 o H5 O K5 F5.
  destruct o as [[t5 mt5]|].
  - destruct O as (y & ->). eapply rel_release; [exact H5|]. intros m6 H6. apply rel_same; trivial.
    exists (Some (Heap y)). split; [discriminate|trivial].
  - destruct O as (-> & ->). eapply rel_release; [exact H5|]. intros m6 H6. failing.
Qed.

Lemma comments_rel w sz k : forall f m st d, still w false m -> ok sz st -> fd st = k ->
  rel w sz (still w false) k fst (comments_loop f m st d) (ParseModel.comments_loop f st d).
Proof.
  induction f as [|f IH]; intros m st d (p & Np & H) K F; [reflexivity|]. cbn [comments_loop ParseModel.comments_loop].
  next1. next2.
  eapply (rel_bindm w sz (still w false) (still w false) k fst (fun x : stream * pdoc * bool => fst (fst x))).
  { destruct (0 <? v); [|apply rel_same; trivial; exists p; tauto].
    eapply rel_until_ref; [exact H|exact Np|eassumption|eassumption|]. intros m1 p1 st2 o H1 O K2 F2.
    destruct o as [[t mt]|]; [|failing]. apply rel_same; trivial. exists p1; tauto. }
  intros m1 [[st2 d2] fo] (p1 & Np1 & H1) K2 F2. cbn [fst] in *. next1.
  apply rel_bind. intros [st4 v4] E4. cbv beta iota.
  assert (K4 : ok sz st4 /\ fd st4 = k).
  { destruct (p_header d2); [kept; tauto|]. injection E4 as <- _. tauto. }
  destruct K4 as (K4 & F4).
  eapply (rel_bindm w sz (still w false) (still w false) k fst (fun x : stream * pdoc * bool => fst (fst x))).
  { destruct (0 <? v4); [|apply rel_same; trivial; exists p1; tauto].
    eapply rel_bindm; [apply pi_rel; trivial; exists p1; tauto|]. intros m3 [st5 d5] S3 K5 F5. cbv beta iota. apply rel_same; trivial. }
  intros m3 [[st5 d5] fo5] S3 K5 F5. cbn [fst] in *. destruct fo5; [apply IH; trivial|].
  next1. apply rel_same; trivial.
Qed.
Lemma consume_rel w sz k m st d : still w false m -> ok sz st -> fd st = k ->
  rel w sz (still w false) k fst (consume_comments m st d) (ParseModel.consume_comments st d).
Proof. apply comments_rel. Qed.

Lemma still_intro w p m : idle w false p m [] -> p <> Some Pool -> still w false m.
Proof. exists p; tauto. Qed.

Lemma copy_rel {A} w sz I k (P : A -> stream) m d f' f : still w false m ->
  (forall m', still w false m' -> rel w sz I k P (f' m') f) ->
  rel w sz I k P (bind (copy_encoding m d) f') (bind (ParseModel.configure_encoding d) (fun _ => f)).
Proof.
  intros (p & Np & H) R. unfold copy_encoding, ParseModel.configure_encoding. destruct (p_encoding d) as [e|] eqn:E; [|apply R; exists p; tauto].
  destruct (take m) as [m2 c] eqn:T.
  assert (H2 : idle w false p m2 [c]).
  { destruct (take_idle _ _ _ _ _ H) as (A0 & B). rewrite T in *. cbn in A0, B. subst c. exact A0. }
  match goal with |- context [bind ?e (fun _ => release m2 c)] => destruct e as [x| |] end; cbn [bind]; [|now left|reflexivity].
  eapply rel_release; [exact H2|]. intros m3 H3. apply R. exists p; tauto.
Qed.

Lemma keep_encoding_ok w x m : idle w false (Some (Heap x)) m [] -> exists m', keep_encoding m = Ok m' /\ idle w false None m' [].
Proof.
  intros H. unfold keep_encoding. rewrite (i_last _ _ _ _ _ H). eexists; split; [reflexivity|].
  destruct H as [E L P N Fo Kk W R O D]; constructor; trivial.
  - eapply exact_perm; [|exact E]. cbn [own document with_last with_document heap_of]. perm.
  - cbn. intros X. apply app_eq_nil in X as (X & _). contradiction.
Qed.

Lemma header_rel w sz k m st d : still w false m -> ok sz st -> fd st = k -> p_header d = false ->
  (forall b, stream_check st ["239"; "187"; "191"]%char = Ok b -> b = true -> fd st = false -> 3 <= s_size st) ->
  rel w sz (still w false) k fst (parse_xml_header m st d) (ParseModel.parse_xml_header st d).
Proof.
  intros S K F Hd Bom. unfold parse_xml_header, ParseModel.parse_xml_header. rewrite Hd.
  apply rel_bind. intros bom E. cbv zeta.
  set (st0 := if (bom : bool) then stream_move st 3 else st).
  assert (K0 : keeps st st0).
  { unfold st0. destruct bom; [|apply keeps_refl]. apply move_keeps. intros z _ F0. specialize (Bom _ E eq_refl F0). lia. }
  keep K0. clearbody st0. next2.
  eapply (rel_bindm w sz (still w false) (still w false) k fst fst).
  - destruct (v =? 0); [apply rel_same; trivial|].
    destruct S as (p & Np & H). next2. destruct (negb (0 <? v0)); [failing|]. next1. next2.
    destruct (v1 =? 0); [failing|]. next1. next2. destruct (v2 =? 0); [failing|]. next1. next2.
    eapply (rel_bindm w sz (still w false) (still w false) k fst fst).
    { destruct (0 <? v3); [|apply rel_same; trivial; exists p; tauto].
      eapply rel_until; [exact H|exact Np|eassumption|eassumption|]. intros m1 p1 sa o H1 O Ka Fa.
      destruct o as [[t mt]|]; [|destruct O as (-> & ->); failing]. destruct O as (x & ->).
      rewrite (idle_touch _ _ _ _ _ H1). cbn [bind]. destruct (keep_encoding_ok _ _ _ H1) as (m2 & -> & H2). cbn [bind].
      apply rel_same; trivial. exists None; split; [discriminate|trivial]. }
    intros m1 [sa d8] (p1 & Np1 & H1) Ka Fa. cbn [fst] in *. next1. next2.
    eapply (rel_bindm w sz (still w false) (still w false) k fst fst).
    { destruct (0 <? v4); [|apply rel_same; trivial; exists p1; tauto].
      eapply rel_until; [exact H1|exact Np1|eassumption|eassumption|]. intros m2 p2 sb o H2 O Kb Fb.
      destruct o as [[t mt]|]; [|destruct O as (-> & ->); failing]. destruct O as (x & ->).
      nexte. apply rel_same; trivial. exists (Some (Heap x)); split; [discriminate|trivial]. }
    intros m2 [sb d11] (p2 & Np2 & H2) Kb Fb. cbn [fst] in *. next1. next2.
    destruct (negb (0 <? v5)); [failing|]. apply consume_rel; trivial. exists p2; tauto.
  - intros m1 [sc d2] S1 Kc Fc. cbn [fst] in *. cbv beta iota. apply copy_rel; trivial. intros m2 S2. next2.
    destruct (0 <? v0); [|apply rel_same; trivial]. destruct S2 as (p & Np & H).
    eapply rel_until_ref; [exact H|exact Np|eassumption|eassumption|]. intros m3 p3 sd o H3 O Kd Fd.
    apply consume_rel; trivial. exists p3; tauto.
Qed.
