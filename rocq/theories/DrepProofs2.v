(** The loader with its book follows the loader: comments and elements (C61). *)
From Coq Require Import Permutation Lia.
From Verif Require Import Prelude StrModel StreamModel TreeModel ParseModel DtdModel DtdDocModel LoadModel.
From Verif Require Import RepModel RepSpec RepProofs RepProofs2 RepProofs3 DrepModel DrepSpec DnearProofs DrepProofs.
Open Scope Z_scope.

Definition same {A} (x : A) : A := x.
Lemma comments_drel w c k d : forall f m p st q, at_work w p m d [] -> okd c st -> fd st = k -> p_header q = false ->
  drel w c k same (fun _ m => exists p, at_work w p m d []) fst (comments_loop f m st q) (ParseModel.comments_loop f st q).
Proof.
  induction f as [|f IH]; intros m p st q H K F Hq; [reflexivity|]. cbn [comments_loop ParseModel.comments_loop].
  next1. next2.
  eapply (drel_bindm w c k same _ fst same (fun (x : stream * pdoc * bool) m => p_header (snd (fst x)) = false /\ exists p, at_work w p m d []) (fun x : stream * pdoc * bool => fst (fst x))).
  { destruct (0 <? v); [|apply drel_same; eauto].
    eapply drel_until_ref; [exact H|eassumption|eassumption|goods|]. intros m1 p1 st2 o H1 K2 F2.
    destruct o as [[t mt]|]; [|failing]. apply drel_same; eauto. split; [|eauto]. cbn [fst snd]. unfold add_item. destruct (p_stack q); exact Hq. }
  intros m1 [[st2 d2] fo] (Hd & p1 & H1) K2 F2. cbn [fst snd same] in *. next1. rewrite Hd. cbn [bind].
  change (0 <? 0) with false. cbv iota. cbn [bindm bindo]. unfold same. destruct fo; [eapply IH; eauto|].
  next1. apply drel_same; eauto.
Qed.
Lemma consume_drel w c k d m p st : at_work w p m d [] -> okd c st -> fd st = k ->
  drel w c k same (fun _ m => exists p, at_work w p m d []) fst (consume_comments m st pdoc_new) (ParseModel.consume_comments st pdoc_new).
Proof. intros. eapply comments_drel; eauto. Qed.

(** ** Content specifications *)
Fixpoint freed_nodes (l : list mnode) : list nat := match l with [] => [] | n :: r => freed_node n ++ freed_nodes r end.
Lemma freed_items_eq self o : freed_items (MList self o) = match o with None => [] | Some (b, ns) => freed_nodes ns ++ [b] end ++ [self].
Proof. destruct o as [[b ns]|]; reflexivity. Qed.
Lemma freed_nodes_app a b : freed_nodes (a ++ b) = freed_nodes a ++ freed_nodes b.
Proof. induction a as [|x a IH]; cbn; trivial. now rewrite IH, app_assoc. Qed.

Definition freed_frame (f : mframe) : list nat := freed_nodes (f_nodes f) ++ [f_list f; f_self f; f_child f].
Definition pending (o : mopen) (fs : list mframe) : list nat := freed_items (mclosed o) ++ concat (map freed_frame fs).

Ltac pm := apply (proj2 (Permutation_count_occ Nat.eq_dec _ _)); intro; repeat (rewrite count_occ_app || rewrite freed_nodes_app || cbn [count_occ app freed_nodes freed_node concat map]);
  repeat destruct (Nat.eq_dec _ _); lia.
Lemma take_eq w p m d e m' b : at_work w p m d e -> take m = (m', b) -> at_work w p m' d (b :: e).
Proof. intros H E. apply at_take in H. now rewrite E in H. Qed.
Lemma ready_ok {X} w p m d e (o : option (nat * list X)) m' b l : at_work w p m d e -> ready m o = (m', (b, l)) ->
  (o = Some (b, l) /\ m' = m) \/ (o = None /\ l = [] /\ at_work w p m' d (b :: e)).
Proof.
  intros H. unfold ready. destruct o as [x|].
  - intros [= <- ->]. now left.
  - destruct (take m) as [m1 b1] eqn:T. intros [= <- <- <-]. right. split; trivial. split; trivial. eapply take_eq; eauto.
Qed.
Lemma madd_ok w p m d o fs e x m' o' : at_work w p m d (x :: pending o fs ++ e) -> madd m o x = (m', o') -> at_work w p m' d (pending o' fs ++ e).
Proof.
  intros H. unfold madd. destruct (ready m (mo_items o)) as [m1 [b l]] eqn:R. destruct (take m1) as [m2 n] eqn:T. intros [= <- <-].
  destruct o as [self items]. cbn [mo_items mo_self] in *. unfold pending, mclosed in *. cbn [mo_items mo_self] in *.
  rewrite freed_items_eq in H |- *. destruct (ready_ok _ _ _ _ _ _ _ _ _ H R) as [(-> & ->)|(-> & -> & H1)].
  - eapply at_perm; [|exact (take_eq _ _ _ _ _ _ _ H T)]. pm.
  - eapply at_perm; [|exact (take_eq _ _ _ _ _ _ _ H1 T)]. pm.
Qed.
Lemma mqueue_ok w p m d o fs e m' o' f : at_work w p m d (pending o fs ++ e) -> mqueue m o = (m', o', f) -> at_work w p m' d (pending o' (f :: fs) ++ e).
Proof.
  intros H. unfold mqueue. destruct (take m) as [m1 child] eqn:T1. destruct (take m1) as [m2 n] eqn:T2. destruct (ready m2 (mo_items o)) as [m3 [b l]] eqn:R. intros [= <- <- <-].
  pose proof (take_eq _ _ _ _ _ _ _ H T1) as H1. pose proof (take_eq _ _ _ _ _ _ _ H1 T2) as H2.
  destruct o as [self items]. unfold pending, mclosed in *. cbn [mo_items mo_self] in *.
  cbn [concat map]. change (freed_frame (MFrame self b l n)) with (freed_nodes l ++ [b; self; n]).
  rewrite freed_items_eq in H2 |- *. destruct (ready_ok _ _ _ _ _ _ _ _ _ H2 R) as [(-> & ->)|(-> & -> & H3)].
  - eapply at_perm; [|exact H2]. pm.
  - eapply at_perm; [|exact H3]. pm.
Qed.
Lemma mpop_ok o f fs : Permutation (pending o (f :: fs)) (pending (mpop o f) fs).
Proof.
  unfold pending, mpop. cbn [concat map]. change (freed_frame f) with (freed_nodes (f_nodes f) ++ [f_list f; f_self f; f_child f]). unfold mclosed at 2. cbn [mo_self mo_items]. rewrite freed_items_eq, freed_nodes_app. cbn [freed_nodes freed_node]. pm.
Qed.

(** closing lists: the same as without memory, and no block changes hands *)
Lemma close_drel c k : forall stack mstack st chunk cur mcur, okd c st -> fd st = k -> length mstack = length stack ->
  match close_loop st chunk cur stack mcur mstack with
  | Ok (mcur', mstack', (st', chunk', cur', stack')) => LoadModel.close_loop st chunk cur stack = Ok (st', chunk', cur', stack') /\
      okd c st' /\ fd st' = k /\ length mstack' = length stack' /\ Permutation (pending mcur mstack) (pending mcur' mstack')
  | UB => LoadModel.close_loop st chunk cur stack = UB
  | NoFuel => LoadModel.close_loop st chunk cur stack = NoFuel
  end.
Proof.
  induction stack as [|up stack IH]; intros mstack st chunk cur mcur K F L; destruct mstack as [|f mstack]; try discriminate; cbn [close_loop LoadModel.close_loop];
    (destruct (consume_spaces st) as [s1| |] eqn:E1; cbn [bind]; trivial; kept;
     destruct (repetition s1) as [[s2 t]| |] eqn:E2; cbn [bind]; trivial; unfold repetition in E2; kept;
     destruct (consume_spaces s2) as [s3| |] eqn:E3; cbn [bind]; trivial; kept;
     destruct (which s3 _ _) as [[s4 ch]| |] eqn:E4; cbn [bind]; trivial; kept;
     destruct (consume_spaces s4) as [s5| |] eqn:E5; cbn [bind]; trivial; kept;
     destruct (stream_inspect s5 _) as [[s6 v]| |] eqn:E6; cbn [bind]; trivial; kept).
  - repeat (split; trivial).
  - cbv zeta. destruct (0 <? v).
    + specialize (IH mstack s6 ch (add_part up (closed (Open (o_ty cur) t (o_ps cur)))) (mpop mcur f) ltac:(eassumption) ltac:(eassumption) ltac:(cbn in L; lia)).
      destruct (close_loop s6 ch _ stack _ mstack) as [[[mc ms] [[[s7 ch7] cu7] st7]]| |]; trivial.
      destruct IH as (I1 & I2 & I3 & I4 & I5). repeat (split; trivial). eapply Permutation_trans; [apply mpop_ok|exact I5].
    + repeat (split; trivial); [cbn in L; lia|]. apply mpop_ok.
Qed.

Definition with_items (w : bool) (d : mdtd) (e : list nat) (x : mlist * (stream * (el_type * part))) (m : book) : Prop :=
  exists p, at_work w p m d (freed_items (fst x) ++ e).
Lemma spec_drel w c k d e : e <> [] -> forall f m p st ty cur stack mcur mstack sk,
  at_work w p m d (sk :: pending mcur mstack ++ e) -> okd c st -> fd st = k -> length mstack = length stack ->
  drel w c k snd (with_items w d e) fst (spec_loop f m st ty cur stack mcur mstack sk) (LoadModel.spec_loop f st ty cur stack).
Proof.
  intros Ne. assert (Nx : forall l, l ++ e <> []) by (intros l X; apply app_eq_nil in X; tauto).
  induction f as [|f IH]; intros m p st ty cur stack mcur mstack sk H K F L; [reflexivity|]. cbn [spec_loop LoadModel.spec_loop].
  next1. next2. destruct (0 <? v).
  { destruct (mqueue m mcur) as [[m1 mnew] fr] eqn:Q. eapply IH; [|eassumption|eassumption|cbn; congruence].
    eapply at_perm; [|eapply (mqueue_ok _ _ _ _ _ mstack (sk :: e)); [|exact Q]; eapply at_perm; [|exact H]; apply Permutation_middle].
    apply Permutation_sym, Permutation_middle. }
  eapply drel_until; [exact H|eassumption|eassumption|goods|]. intros m1 p1 sa o H1 O Ka' Gu Ka Fa.
  destruct o as [[x ch]|]; [|destruct O as (-> & ->); eapply drel_with; [eassumption|eassumption|eassumption|lia|apply is_element; [reflexivity|apply Nx]]].
  destruct (ch =? 8); [eapply drel_with; [eassumption|eassumption|eassumption|lia|apply is_element; [reflexivity|apply Nx]]|].
  destruct O as (y & ->). eapply drel_keep; [exact H1|]. intros m2 H2. cbv beta iota zeta.
  apply drel_bind. intros [sb ch2] E. cbv beta iota zeta.
  assert (B : okd c sb /\ fd sb = k).
  { destruct (ch =? 0); [|injection E as <- _; tauto]. destruct (consume_spaces sa) as [s1| |] eqn:E1; cbn [bind] in E; try discriminate.
    unfold update_chunk in E. kept. kept. tauto. }
  clear E. destruct B as (Kb & Fb).
  destruct (madd m2 mcur y) as [m3 mcur3] eqn:A.
  assert (H3 : at_work w None m3 d (sk :: pending mcur3 mstack ++ e)).
  { eapply at_perm; [|eapply (madd_ok _ _ _ _ _ mstack (sk :: e)); [|exact A]; eapply at_perm; [|exact H2]].
    - apply Permutation_sym, Permutation_middle.
    - apply perm_skip. apply Permutation_middle. }
  clear H H1 H2 A.
  set (sep := ((ch2 =? 4) || (ch2 =? 5) || (ch2 =? 6))%bool).
  assert (B : match (if sep then (st' <- consume_spaces sb ;; '(st', o) <- which st' [(s2b ",", Some 1); (s2b "|", Some 2); (s2b ")", Some 3)] None ;; Ok (st', o)) else Ok (sb, Some ch2)) with
     | Ok (sc, Some ch3) => (if sep then update_separator sb else Ok (Some (sb, ch2))) = Ok (Some (sc, ch3)) /\ okd c sc /\ fd sc = k
     | Ok (sc, None) => (if sep then update_separator sb else Ok (Some (sb, ch2))) = Ok None /\ okd c sc /\ fd sc = k
     | UB => (if sep then update_separator sb else Ok (Some (sb, ch2))) = UB
     | NoFuel => (if sep then update_separator sb else Ok (Some (sb, ch2))) = NoFuel
     end).
  { destruct sep; [|tauto]. unfold update_separator. destruct (consume_spaces sb) as [s1| |] eqn:E1; cbn [bind]; trivial.
    match goal with |- context [which s1 ?l ?dd] => destruct (which s1 l dd) as [[s2 o2]| |] eqn:E2 end; cbn [bind]; trivial. kept. kept.
    destruct o2; cbn [bind]; tauto. }
  destruct (if sep then (st' <- consume_spaces sb ;; _) else _) as [[sc [ch3|]]| |]; cbn [bind bindm drel] in B |- *.
  2: { destruct B as (-> & Kc & Fc). cbn [bindo]. eapply drel_with; [eassumption|eassumption|eassumption|lia|apply is_element; [reflexivity|apply Nx]]. }
  2: { rewrite B. reflexivity. }
  2: { rewrite B. reflexivity. }
  destruct B as (-> & Kc & Fc). cbn [bindo].
  destruct (retype _ _) as [nt|].
  2: { eapply drel_with; [eassumption|eassumption|eassumption|lia|apply is_element; [destruct (ch3 =? 1); reflexivity|apply Nx]]. }
  cbv zeta.
  set (cur1 := Open nt _ _). set (ty1 := retype_element _ _ _ _).
  assert (B : match (if ch3 =? 3 then close_loop sc ch3 cur1 stack mcur3 mstack else Ok (mcur3, mstack, (sc, ch3, cur1, stack))) with
    | Ok (mcur', mstack', (st', chunk', cur', stack')) => (if ch3 =? 3 then LoadModel.close_loop sc ch3 cur1 stack else Ok (sc, ch3, cur1, stack)) = Ok (st', chunk', cur', stack') /\
        okd c st' /\ fd st' = k /\ length mstack' = length stack' /\ Permutation (pending mcur3 mstack) (pending mcur' mstack')
    | UB => (if ch3 =? 3 then LoadModel.close_loop sc ch3 cur1 stack else Ok (sc, ch3, cur1, stack)) = UB
    | NoFuel => (if ch3 =? 3 then LoadModel.close_loop sc ch3 cur1 stack else Ok (sc, ch3, cur1, stack)) = NoFuel
    end).
  { destruct (ch3 =? 3); [apply close_drel; trivial|]. repeat (split; trivial). }
  destruct (if ch3 =? 3 then close_loop sc ch3 cur1 stack mcur3 mstack else _) as [[[mc ms] [[[sd ch4] cur4] stack4]]| |]; cbn [bind].
  2: { rewrite B. reflexivity. }
  2: { rewrite B. reflexivity. }
  destruct B as (-> & Kd & Fd & L4 & P4). cbn [bind].
  assert (H4 : at_work w None m3 d (sk :: pending mc ms ++ e)).
  { eapply at_perm; [|exact H3]. apply perm_skip. now apply Permutation_app_tail. }
  destruct (negb (ch4 =? 3)); cbn [orb]; [eapply IH; eassumption|].
  destruct stack4 as [|s4 stack4]; [|eapply IH; eassumption].
  eapply drel_release; [exact H4|]. intros m5 H5. apply drel_same; trivial.
  exists None. cbn [fst]. destruct ms; [|discriminate]. unfold pending in H5. cbn [map concat] in H5. rewrite app_nil_r in H5. exact H5.
Qed.

Lemma read_drel w c k d e m p st : e <> [] -> at_work w p m d e -> okd c st -> fd st = k ->
  drel w c k snd (with_items w d e) fst (read_spec m st) (LoadModel.read_spec st).
Proof.
  intros Ne H K F. unfold read_spec, LoadModel.read_spec. destruct (take m) as [m1 sk] eqn:T1. destruct (take m1) as [m2 self] eqn:T2.
  pose proof (take_eq _ _ _ _ _ _ _ (take_eq _ _ _ _ _ _ _ H T1) T2) as H2.
  assert (H3 : at_work w p m2 d (sk :: pending (MOpen self None) [] ++ e)).
  { eapply at_perm; [|exact H2]. cbn. apply perm_swap. }
  next1. next2. destruct (v =? 0).
  - eapply drel_with; [eassumption|eassumption|eassumption|lia|apply is_element; [reflexivity|cbn; discriminate]].
  - eapply spec_drel; eauto.
Qed.
