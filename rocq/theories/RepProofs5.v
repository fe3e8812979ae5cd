(** The parser with its book follows the parser: elements, contents, documents (C60). *)
From Coq Require Import Permutation Lia.
From Verif Require Import Prelude StrModel AttrModel TreeModel StreamModel ParseModel RepModel RepProofs RepProofs2 RepProofs3 RepProofs4.
Open Scope Z_scope.

Definition of4 {B C D} (x : stream * B * C * D) : stream := fst (fst (fst x)).
Definition of3 {B C} (x : stream * B * C) : stream := fst (fst x).
Definition of5 {B C D E} (x : stream * B * C * D * E) : stream := fst (fst (fst (fst x))).

Lemma attrs_rel w sz k : forall f m st d a p, idle w true p m [] -> p <> Some Pool -> ok sz st -> fd st = k ->
  rel w sz (still w false) k of4 (attrs_loop f m st d a) (ParseModel.attrs_loop f st d a).
Proof.
  induction f as [|f IH]; intros m st d a p H Np K F; [reflexivity|]. cbn [attrs_loop ParseModel.attrs_loop].
  next2. destruct (0 <? v).
  { eapply rel_alloc; [exact H|]. intros m1 H1. apply rel_same; trivial. exists p; tauto. }
  next2. destruct (0 <? v0).
  { eapply rel_alloc; [exact H|]. intros m1 H1. apply rel_same; trivial. exists p; tauto. }
  next1. eapply rel_until; [exact H|exact Np|eassumption|eassumption|]. intros m1 p1 sa o H1 O Ka Fa.
  destruct o as [[t mt]|]; [|destruct O as (-> & ->); failing]. subst p1.
  eapply rel_nullify; [exact H1|]. intros m2 H2. cbn [heap_of app] in H2. cbv zeta.
  destruct (cstr t) as [|c t']; [failing|]. set (name := c :: t').
  next2. eapply (rel_bindm w sz (still w false) (clean w true) k of4 fst).
  { destruct (0 <? v1); [apply rel_same; trivial|]. next2. destruct (0 <? v2); [apply rel_same; trivial|].
    eapply rel_alloc; [exact H2|]. intros m3 H3. failing. }
  intros m3 [sb delim] H3 Kb Fb. cbn [fst] in *. cbv beta iota. unfold clean in H3.
  eapply rel_until; [exact H3|discriminate|eassumption|eassumption|]. intros m4 p4 sc o H4 O Kc Fc.
  eapply rel_nullify; [exact H4|]. intros m5 H5.
  assert (H5' : idle w true None m5 []).
  { destruct o as [o|]; [subst p4; exact H5|destruct O as (-> & ->); exact H5]. }
  clear H5. nexte. destruct x.
  { destruct (@fail_report_ok (stream * pdoc * attrs * bool) sz w true None m5 sc (-3) (s2b "Unable to add attribute '%s' to node <%s> which already has this attribute. Duplicate attribute error. Error was found near to: %s") H5' Kc ltac:(discriminate) ltac:(lia)) as [(-> & X)|(m' & -> & D)].
    - right. congruence.
    - split; trivial. now rewrite <- Fc. }
  apply rel_bind. intros [a' u] _. cbv beta iota. nexte. destruct x as [l|]; [|failing].
  next1. eapply IH; [exact H5'|discriminate|assumption|assumption].
Qed.

Lemma node_rel w sz k m st d : still w false m -> ok sz st -> fd st = k ->
  rel w sz (still w false) k of3 (parse_node m st d) (ParseModel.parse_node st d).
Proof.
  intros S K F. unfold parse_node, ParseModel.parse_node.
  eapply rel_bindm; [apply consume_rel; trivial|]. intros m1 [sa da] (p & Np & H) Ka Fa. cbn [fst] in *. cbv beta iota.
  next2. apply rel_bind. intros [sb go] E. cbv beta iota.
  assert (B : ok sz sb /\ fd sb = k).
  { destruct (0 <? v); [injection E as <- _; tauto|]. kept. tauto. }
  destruct B as (Kb & Fb). clear E. destruct go; cbn [negb]; [|failing].
  eapply rel_alloc; [exact H|]. intros m2 H2.
  eapply rel_until; [exact H2|exact Np|eassumption|eassumption|]. intros m3 p3 sc o H3 O Kc Fc.
  eapply rel_nullify; [exact H3|]. intros m4 H4.
  destruct o as [[t mt]|].
  2:{ destruct O as (-> & ->). eapply rel_alloc; [exact H4|]. intros m5 H5.
      eapply rel_fail; [exact H5|discriminate|eassumption|eassumption|lia| |tauto].
      rewrite app_nil_r. destruct p as [[]|]; cbn; lia. }
  subst p3. cbn [heap_of app] in H4. cbv zeta. destruct (cstr t) as [|c t'].
  { eapply rel_alloc; [exact H4|]. intros m5 H5. failing. }
  set (name := c :: t').
  eapply (rel_bindm w sz (still w false) (still w false) k of3 of5).
  - destruct (mt =? 1).
    + next1. eapply rel_bindm; [eapply attrs_rel; [exact H4|discriminate|assumption|assumption]|].
      intros m5 [[[sd dd] ad] e] S5 Kd Fd. cbv beta iota. apply rel_same; trivial.
    + nexte. eapply rel_alloc; [exact H4|]. intros m5 H5.
      destruct (Ascii.eqb _ _); apply rel_same; trivial; exists None; split; trivial; discriminate.
  - intros m5 [[[[sd dd] ad] nm] e] S5 Kd Fd. cbv beta iota. unfold of5 in Kd, Fd; cbn [fst] in Kd, Fd.
    destruct e; apply rel_same; trivial.
Qed.

Lemma close_rel w sz k m st d : still w false m -> ok sz st -> fd st = k ->
  rel w sz (fun m => still w false m /\ p_stack d <> []) k (fun x => x) (parse_close_node m st d) (ParseModel.parse_close_node st d).
Proof.
  intros (p & Np & H) K F. unfold parse_close_node, ParseModel.parse_close_node.
  eapply rel_until_ref; [exact H|exact Np|eassumption|eassumption|]. intros m1 p1 sa o H1 Np1 Ka Fa.
  destruct o as [[t mt]|]; [|failing]. nexte. cbv zeta. destruct (p_stack d) as [|n r]; [failing|]. nexte.
  destruct x0; [|failing]. apply rel_same; trivial. split; [exists p1; tauto|discriminate].
Qed.

Lemma content_rel w sz k : forall f m st d, still w false m -> ok sz st -> fd st = k ->
  rel w sz (still w false) k fst (content_loop f m st d) (ParseModel.content_loop f st d).
Proof.
  induction f as [|f IH]; intros m st d S K F; [reflexivity|]. cbn [content_loop ParseModel.content_loop].
  next2. destruct v; cbn [negb]; [|apply rel_same; trivial]. cbv zeta.
  apply rel_bind. intros sa E. assert (B : ok sz sa /\ fd sa = k).
  { destruct (hd false (p_preserve d)); [injection E as <-; tauto|]. kept. tauto. }
  destruct B as (Ka & Fa). 
  clear E. next2. apply rel_bind. intros [sb v2] E. cbv beta iota.
  assert (B : ok sz sb /\ fd sb = k).
  { destruct (0 <? v); [injection E as <- _; tauto|]. kept. tauto. }
  destruct B as (Kb & Fb). clear E. destruct ((0 <? v) || (0 <? v2)).
  { eapply rel_bindm; [apply consume_rel; trivial|]. intros m1 [sc dc] S1 Kc Fc. apply IH; trivial. }
  next2. destruct (0 <? v0).
  { accepted st2. pose proof (close_rel w sz k m (stream_accept st2) d S K3 F3) as C.
    destruct (parse_close_node m (stream_accept st2) d) as [[m1 [sc|]]| |]; cbn [rel bindm] in C |- *.
    - destruct C as (-> & (S1 & Ns) & Kc & Fc). destruct (p_stack d) as [|n r]; [congruence|].
      destruct r as [|n' r]; [apply rel_same; trivial|]. apply IH; trivial.
    - destruct C as (-> & D). split; trivial.
    - destruct C as [->|C]; [now left|now right].
    - rewrite C. reflexivity. }
  next2. destruct (0 <? v1).
  { accepted st3. destruct S as (p & Np & H). eapply rel_alloc; [exact H|]. intros m1 H1.
    eapply rel_until; [exact H1|exact Np|eassumption|eassumption|]. intros m2 p2 sc o H2 O Kc Fc.
    eapply rel_alloc; [exact H2|]. intros m3 H3.
    destruct o as [[t mt]|]; [|destruct O as (-> & ->); failing]. subst p2.
    eapply rel_nullify; [exact H3|]. intros m4 H4. apply IH; trivial. exists None; split; [discriminate|exact H4]. }
  next2. destruct (0 <? v3).
  { accepted st4. eapply rel_bindm; [apply node_rel; trivial|]. intros m1 [[sc dc] e] S1 Kc Fc. cbv beta iota. apply IH; trivial. }
  destruct S as (p & Np & H).
  set (se := if s_idx st0 <? s_idx st4 then stream_move st4 (s_idx st0) else st4).
  assert (Ke : keeps st4 se).
  { unfold se. destruct (Z.ltb_spec (s_idx st0) (s_idx st4)); [|apply keeps_refl]. apply move_keeps. intros z A B.
    destruct (A B). assert (X0 : fd st0 = false) by congruence. destruct (K0 X0). lia. }
  keep Ke. clearbody se. eapply rel_alloc; [exact H|]. intros m1 H1.
  eapply rel_until; [exact H1|exact Np|eassumption|eassumption|]. intros m2 p2 sc o H2 O Kc Fc.
  eapply rel_alloc; [exact H2|]. intros m3 H3.
  destruct o as [[t mt]|]; [|destruct O as (-> & ->); failing]. subst p2.
  eapply rel_nullify; [exact H3|]. intros m4 H4. apply IH; trivial. exists None; split; [discriminate|exact H4].
Qed.
