(** The book of the blocks of a DTD: what each operation does to it (C61). *)
From Coq Require Import Permutation Lia.
From Verif Require Import Prelude StrModel StreamModel TreeModel ParseModel DtdModel DtdDocModel LoadModel.
From Verif Require Import RepModel RepSpec RepProofs RepProofs2 RepProofs3 DrepModel DrepSpec.
From Verif Require FdtdProofs LoadProofs2 ParseProofs StreamProofs DnearProofs.
From Verif Require FrepSpec FwinProofs.
Import DnearProofs FrepSpec FwinProofs.
Open Scope Z_scope.

(** at work on the DTD [d], with further blocks [e] *)
Definition holds (m : book) (d : mdtd) : Prop := document m = freed_dtd d /\ (2 <= length (own m))%nat.
Definition at_work (w : bool) (p : option ptr) (m : book) (d : mdtd) (e : list nat) : Prop :=
  idle w false p m e /\ holds m d /\ p <> Some Pool.

Lemma at_perm w p m d e e' : Permutation e e' -> at_work w p m d e -> at_work w p m d e'.
Proof.
  intros P (H & D & N). split; [|tauto]. destruct H; constructor; trivial. eapply exact_perm; [|eassumption].
  do 3 apply Permutation_app_head. exact P.
Qed.
Lemma freed_dtd_some d : freed_dtd d <> [].
Proof. unfold freed_dtd. intros H. do 3 (apply app_eq_nil in H as (_ & H)). discriminate. Qed.
Lemma at_linked w p m d e d' e' : Permutation (freed_dtd d ++ e) (freed_dtd d' ++ e') -> at_work w p m d e -> at_work w p (linked_with m d') d' e'.
Proof.
  intros P (H & (D & D2) & N). split; [|split; [now split|trivial]]. destruct H as [E L Pl Nn F K W R O Dn]; constructor; trivial; [|apply freed_dtd_some].
  cbn [own document linked_with with_document]. eapply exact_perm; [|exact E]. do 2 apply Permutation_app_head. now rewrite D.
Qed.
Lemma at_take w p m d e : at_work w p m d e -> at_work w p (fst (take m)) d (snd (take m) :: e).
Proof. intros (H & D & N). split; [|tauto]. now apply take_idle. Qed.
Lemma at_takes w p d : forall n m e, at_work w p m d e -> at_work w p (fst (takes m n)) d (snd (takes m n) ++ e) /\ length (snd (takes m n)) = n.
Proof.
  induction n as [|n IH]; intros m e H; [split; trivial|]. cbn [takes].
  pose proof (at_take _ _ _ _ _ H) as H1. destruct (take m) as [m1 b]. cbn [fst snd] in H1.
  destruct (IH _ _ H1) as (H2 & L). destruct (takes m1 n) as [m2 l]. cbn [fst snd] in *. split; [|cbn; congruence].
  eapply at_perm; [|exact H2]. apply Permutation_sym, Permutation_middle.
Qed.
Lemma at_release w p m d b e : at_work w p m d (b :: e) -> exists m', release m b = Ok m' /\ at_work w p m' d e.
Proof.
  intros (H & D & N). destruct (release_idle _ _ _ _ _ _ H) as (m' & R & H'). exists m'. split; trivial. split; trivial. split; trivial.
  unfold release in R. destruct (existsb _ _); [|discriminate]. injection R as <-. exact D.
Qed.
Lemma at_releases w p d : forall l m e, at_work w p m d (l ++ e) -> exists m', releases m l = Ok m' /\ at_work w p m' d e.
Proof.
  induction l as [|b l IH]; intros m e H; [exists m; split; trivial|]. cbn [releases].
  destruct (at_release _ _ _ _ _ _ H) as (m1 & -> & H1). cbn [bind]. now apply IH.
Qed.
Lemma at_touch w p m d e : at_work w p m d e -> touch m = Ok tt.
Proof. intros (H & _). eapply idle_touch; eauto. Qed.
Lemma release_chunk_doc m m' : release_chunk m = Ok m' -> document m' = document m /\ own m' = own m.
Proof.
  unfold release_chunk. destruct (last m) as [[x|]|]; [| |now intros [= <-]].
  - unfold release. destruct (existsb _ _); cbn [bind]; [|discriminate]. now intros [= <-].
  - try discriminate; now intros [= <-].
Qed.
Lemma at_until w p m d e st a c st' o : at_work w p m d e -> get_until st a c = Ok (st', o) ->
  exists m' p', take_until m st a c = Ok (m', st', o) /\ at_work w p' m' d e /\
    match o with None => m' = m /\ p' = p | Some _ => exists x, p' = Some (Heap x) end.
Proof.
  intros (H & D & N) G. destruct (take_until_ok _ _ _ _ _ _ _ _ _ _ H N G) as (m' & p' & T & H' & Q).
  exists m', p'. split; trivial. split.
  - split; [trivial|]. split.
    + revert T. unfold take_until. rewrite (idle_touch _ _ _ _ _ H). cbn [bind]. rewrite G. cbn [bind].
      destruct o as [x|]; [|intros [= <-]; exact D]. destruct (release_chunk m) as [m1| |] eqn:R; cbn [bind]; try discriminate.
      apply release_chunk_doc in R as (R1 & R2). destruct D as (D1 & D2). destruct (pool m1); cbn [bind]; intros [= <-]; (split; cbn; [congruence|rewrite R2; trivial]).
    + destruct o; [destruct Q as (x & ->); discriminate|]. destruct Q as (-> & ->). trivial.
  - destruct o; trivial.
Qed.
Lemma until_ref_doc m st a c m' st' o : take_until_ref m st a c = Ok (m', st', o) -> document m' = document m /\ own m' = own m.
Proof.
  unfold take_until_ref. destruct (touch m); cbn [bind]; try discriminate. destruct (get_until st a c) as [[s1 o1]| |]; cbn [bind]; try discriminate.
  destruct (get_until_ref st a c) as [[s2 o2]| |]; cbn [bind]; try discriminate. destruct o1; cbn [bind].
  - destruct (release_chunk m) as [m1| |] eqn:R; cbn [bind]; try discriminate. apply release_chunk_doc in R. intros [= <- _ _]; trivial.
  - intros [= <- _ _]. tauto.
Qed.
Lemma at_until_ref w p m d e st a c st' o : at_work w p m d e -> get_until_ref st a c = Ok (st', o) ->
  exists m' p', take_until_ref m st a c = Ok (m', st', o) /\ at_work w p' m' d e.
Proof.
  intros (H & D & N) G. destruct (take_until_ref_ok _ _ _ _ _ _ _ _ _ _ H N G) as (m' & p' & T & H' & Q).
  exists m', p'. split; trivial. split; trivial. split; trivial. apply until_ref_doc in T as (T1 & T2). destruct D. split; congruence.
Qed.
Lemma at_keep w x m d e : at_work w (Some (Heap x)) m d e -> exists m', keep_chunk m = Ok (m', x) /\ at_work w None m' d (x :: e).
Proof.
  intros (H & D & N). unfold keep_chunk. rewrite (idle_touch _ _ _ _ _ H). cbn [bind]. rewrite (i_last _ _ _ _ _ H).
  eexists; split; [reflexivity|]. split; [|split; [exact D|discriminate]].
  destruct H as [E L P Nn F K W R O Dn]; constructor; trivial. eapply exact_perm; [|exact E].
  cbn [own document with_last heap_of app]. perm.
Qed.
Lemma at_nullify w p m d e : at_work w p m d e -> heap_of p = [] -> exists m', nullify m = Ok m' /\ at_work w None m' d e.
Proof.
  intros (H & D & N) Hp. destruct (nullify_ok _ _ _ _ _ H) as (m' & R & H'). exists m'. split; trivial. rewrite Hp in H'. split; [exact H'|].
  split; [|discriminate]. revert R. unfold nullify. rewrite (idle_touch _ _ _ _ _ H). cbn [bind]. now intros [= <-].
Qed.

(** ** Giving up *)
(** the text of an error: the one given or, if that has parameter entities, some text *)
Definition okm (c : bytes) (st : stream) : Prop := exists t, ok t st /\ (t = c \/ In "%"%char c).
(** and a file is read close to what there is of it; the buffer has a part of that text *)
Definition winm (c : bytes) (st : stream) : Prop := exists t, window t st /\ (t = c \/ In "%"%char c).
Definition okd (c : bytes) (st : stream) : Prop := okm c st /\ (fd st = true -> closeby st /\ winm c st).
Definition placed (c : bytes) (r : report) : Prop := exists t, place_in t r /\ (t = c \/ In "%"%char c).
Definition placedf (c : bytes) (r : report) : Prop := exists t, place_within t r /\ (t = c \/ In "%"%char c).
Definition gone_by (Q : report -> Prop) (w : bool) (m : book) : Prop :=
  exists lost, exact m (blocks_of m ++ lost) /\ document m = [] /\ own m = [] /\
    if w then exists r, reports m = [r] /\ r_code r < 0 /\ Q r /\ (lost <> [] <-> In (r_text r) element_errors)
    else reports m = [].
Definition gone (w k : bool) (c : bytes) (m : book) : Prop := gone_by (fun r => if k then placedf c r else placed c r) w m.
Lemma far_place c w b p m e st code text m1 r : idle w b p m e -> (fd st = true -> closeby st /\ winm c st) -> fd st = true ->
  error_new m st code text = Ok m1 -> reports m1 = [r] -> placedf c r.
Proof.
  intros H N F G R. destruct (N F) as (((Sf & _) & P & L) & t & Wn & T). pose proof (FdtdProofs.sf_idx _ Sf). pose proof (FdtdProofs.sf_prev _ Sf).
  exists t. split; [|exact T]. pose proof (new_window _ _ _ _ _ _ _ _ _ _ H Wn ltac:(lia) G) as X. unfold told_in in X. rewrite R in X. exact (Forall_inv X).
Qed.
Lemma told_stay w p m e x l : told w p m (x :: l ++ e) -> told w p m (l ++ x :: e).
Proof. intros [E L K W O]; constructor; trivial. eapply exact_perm; [|exact E]. do 6 apply Permutation_app_head. apply Permutation_middle. Qed.
Lemma told_release w p m x e : told w p m (x :: e) -> exists m', release m x = Ok m' /\ told w p m' e /\ reports m' = reports m.
Proof.
  intros [E L K W O]. destruct (release_exact m x (own m ++ heap_of p ++ opt_of (near m) ++ opt_of (follow m) ++ document m ++ blocks_of m ++ e)) as (L2 & R & E2).
  { eapply exact_perm; [|exact E]. perm. }
  rewrite R. eexists; split; [reflexivity|]. split; [|reflexivity]. constructor; trivial.
Qed.
Lemma fail_gone {A} w k c p m d e st code text : at_work w p m d e -> okd c st -> fd st = k -> code < 0 -> (e <> [] <-> In text element_errors) ->
  exists m', fail (A := A) m st code text = Ok (m', None) /\ gone w k c m'.
Proof.
  intros (H & D & N) ((t & K & Kt) & Nr) F C Le. unfold fail. subst k.
  destruct (error_new_ok t _ _ _ _ _ st code text H K) as [(G & X)|(m1 & G & H1 & On)]; [exfalso; exact (tell_there _ _ _ _ _ st code text H (proj1 (Nr X)) G)|]; rewrite G; cbn [bind].
  destruct (stream_free_ok _ _ _ _ H1 N) as (m2 & R & E & Re & Dd & Oo & _). rewrite R. cbn [bind]. eexists; split; [reflexivity|].
  exists e. repeat (split; trivial). unfold one in On. rewrite Re. destruct w; trivial.
  destruct On as (r & Er & Ec & Et & Ei). exists r. split; trivial. split; [lia|]. split; [|now rewrite Et].
  destruct (fd st) eqn:X; [eapply far_place; eauto; rewrite X; auto|exists t; auto].
Qed.
Lemma with_gone {A} w k c p m d b e st code text : at_work w p m d (b :: e) -> okd c st -> fd st = k -> code < 0 -> (e <> [] <-> In text element_errors) ->
  exists m', fail_with (A := A) m st code text b = Ok (m', None) /\ gone w k c m'.
Proof.
  intros (H & D & N) ((t & K & Kt) & Nr) F C Le. unfold fail_with. subst k.
  destruct (error_new_ok t _ _ _ _ _ st code text H K) as [(G & X)|(m1 & G & H1 & On)]; [exfalso; exact (tell_there _ _ _ _ _ st code text H (proj1 (Nr X)) G)|]; rewrite G; cbn [bind].
  destruct (told_release _ _ _ _ _ H1) as (m2 & R1 & H2 & Re2). rewrite R1. cbn [bind].
  destruct (stream_free_ok _ _ _ _ H2 N) as (m3 & R & E & Re & Dd & Oo & _). rewrite R. cbn [bind]. eexists; split; [reflexivity|].
  exists e. repeat (split; trivial). unfold one in On. rewrite Re, Re2. destruct w; trivial.
  destruct On as (r & Er & Ec & Et & Ei). exists r. split; trivial. split; [lia|]. split; [|now rewrite Et].
  destruct (fd st) eqn:X; [eapply far_place; eauto; rewrite X; auto|exists t; auto].
Qed.
Lemma msg_gone {A} w k c p m d e st code text : at_work w p m d e -> okd c st -> fd st = k -> code < 0 -> (e <> [] <-> In text element_errors) ->
  exists m', fail_msg (A := A) m st code text = Ok (m', None) /\ gone w k c m'.
Proof.
  intros H ((t & K & Kt) & Nr) F C Le. unfold fail_msg. subst k. apply at_take in H. destruct (take m) as [m0 b]. cbn [fst snd] in H. destruct H as (H & D & N).
  destruct (error_new_ok t _ _ _ _ _ st code text H K) as [(G & X)|(m1 & G & H1 & On)]; [exfalso; exact (tell_there _ _ _ _ _ st code text H (proj1 (Nr X)) G)|]; rewrite G; cbn [bind].
  destruct (stream_free_ok _ _ _ _ H1 N) as (m2 & R & E & Re & Dd & Oo & _). rewrite R. cbn [bind].
  destruct (release_exact m2 b (blocks_of m2 ++ e)) as (L & R3 & E3). { eapply exact_perm; [|exact E]. apply Permutation_sym, Permutation_middle. }
  rewrite R3. cbn [bind]. eexists; split; [reflexivity|].
  exists e. repeat (split; trivial). unfold one in On. change (reports (with_live m2 L (next m2))) with (reports m2). rewrite Re. destruct w; trivial.
  destruct On as (r & Er & Ec & Et & Ei). exists r. split; trivial. split; [lia|]. split; [|now rewrite Et].
  destruct (fd st) eqn:X; [eapply far_place; eauto; rewrite X; auto|exists t; auto].
Qed.

(** ** The loader with its book does what the loader does *)
(** [g] forgets the memory of a result *)
Definition drel {X A} (w : bool) (c : bytes) (k : bool) (g : X -> A) (I : X -> book -> Prop) (P : A -> stream)
  (r' : res (book * option X)) (r : res (option A)) : Prop :=
  match r' with
  | Ok (m, Some x) => r = Ok (Some (g x)) /\ I x m /\ okd c (P (g x)) /\ fd (P (g x)) = k
  | Ok (m, None) => r = Ok None /\ gone w k c m
  | NoFuel => r = NoFuel
  | UB => r = UB
  end.
Lemma drel_bind {X A B} w c k (g : X -> A) I P (e : res B) f' f :
  (forall x, e = Ok x -> drel w c k g I P (f' x) (f x)) -> drel w c k g I P (bind e f') (bind e f).
Proof. intros H. destruct e as [x| |]; cbn [bind]; [now apply H|reflexivity|reflexivity]. Qed.
Lemma drel_bindm {X A Y B} w c k (g : X -> A) I P (h : Y -> B) J Q e' e (f' : book * Y -> res (book * option X)) (f : B -> res (option A)) :
  drel w c k h J Q e' e ->
  (forall m y, J y m -> okd c (Q (h y)) -> fd (Q (h y)) = k -> drel w c k g I P (f' (m, y)) (f (h y))) -> drel w c k g I P (bindm e' f') (bindo e f).
Proof.
  intros R H. destruct e' as [[m [x|]]| |]; cbn [drel bindm] in *.
  - destruct R as (-> & J0 & K0 & F0). cbn [bindo]. auto.
  - destruct R as (-> & D). cbn [bindo]. split; trivial.
  - rewrite R. reflexivity.
  - rewrite R. reflexivity.
Qed.
Lemma drel_fail {X A} w c k (g : X -> A) I P p m d e st code text : at_work w p m d e -> okd c st -> fd st = k -> code < 0 -> (e <> [] <-> In text element_errors) ->
  drel w c k g I P (fail m st code text) (Ok None).
Proof.
  intros H K F C L. destruct (@fail_gone X _ _ _ _ _ _ _ _ code text H K F C L) as (m' & -> & D); cbn [drel]; tauto.
Qed.
Lemma drel_with {X A} w c k (g : X -> A) I P p m d b e st code text : at_work w p m d (b :: e) -> okd c st -> fd st = k -> code < 0 -> (e <> [] <-> In text element_errors) ->
  drel w c k g I P (fail_with m st code text b) (Ok None).
Proof.
  intros H K F C L. destruct (@with_gone X _ _ _ _ _ _ _ _ _ code text H K F C L) as (m' & -> & D); cbn [drel]; tauto.
Qed.
Lemma drel_msg {X A} w c k (g : X -> A) I P p m d e st code text : at_work w p m d e -> okd c st -> fd st = k -> code < 0 -> (e <> [] <-> In text element_errors) ->
  drel w c k g I P (fail_msg m st code text) (Ok None).
Proof.
  intros H K F C L. destruct (@msg_gone X _ _ _ _ _ _ _ _ code text H K F C L) as (m' & -> & D); cbn [drel]; tauto.
Qed.
Lemma okm_keeps c st st' : keeps st st' -> okm c st -> okm c st'.
Proof. intros (F & K) (t & H & T). exists t. auto. Qed.
(** what is kept, and a file is still read close to what there is *)
Definition stays (st st' : stream) : Prop := keeps st st' /\ (closeby st -> closeby st') /\ forall t, window t st -> window t st'.
Lemma okd_stays c st st' : stays st st' -> okd c st -> okd c st'.
Proof. intros (K & N & Wn) (M & C). split; [eapply okm_keeps; eauto|]. rewrite (proj1 K). intros F. destruct (C F) as (C1 & t & T1 & T2). split; [auto|exists t; auto]. Qed.
Lemma get_until_stays st a l st' o : Forall StreamProofs.good_chunk l -> get_until st a l = Ok (st', o) -> stays st st'.
Proof. intros G E. split; [eapply get_until_keeps; eauto|]. split; [intros N; eapply get_near; eauto|]. intros t Wn. exact (until_window _ _ _ _ _ _ _ _ _ _ _ Wn E). Qed.
Lemma inspect_stays acc st c st' v : shortc c -> common_inspect acc st c = Ok (st', v) -> stays st st'.
Proof. intros G E. split; [eapply inspect_keeps; eauto|]. split; [intros N; eapply inspect_near; eauto|]. intros t Wn. exact (inspect_window _ _ _ _ _ _ Wn E). Qed.
Lemma remains_stays st st' b : stream_remains st = Ok (st', b) -> stays st st'.
Proof. intros E. split; [eapply remains_keeps; eauto|]. split; [intros N; eapply remains_near; eauto|]. intros t Wn. exact (remains_window _ _ _ _ Wn E). Qed.
Lemma spaces_stays st st' : consume_spaces st = Ok st' -> stays st st'.
Proof. intros E. split; [eapply spaces_keeps; eauto|]. split; [intros N; eapply spaces_near; eauto|]. intros t Wn. exact (spaces_window _ _ _ Wn E). Qed.
Lemma accept_stays st : stays st (stream_accept st).
Proof. split; [apply accept_keeps|split; [apply accept_near|trivial]]. Qed.
Ltac goods := first [exact LoadProofs2.stops_good | ParseProofs.gc].
Ltac short1 := split; [split; [apply EscProofs.nul_free_lit; reflexivity|discriminate]|vm_compute; lia].
Ltac shorts := match goal with
  | |- shortc _ => short1
  | |- Forall shortc (map fst ?l) => let x := eval hnf in l in change l with x; cbn [map fst]; repeat (apply Forall_cons; [short1|]); apply Forall_nil
  end.
Lemma drel_until {X A} w c k (g : X -> A) I P p m d e st a l f' f : at_work w p m d e -> okd c st -> fd st = k -> Forall StreamProofs.good_chunk l ->
  (forall m' p' st' o, at_work w p' m' d e ->
     match o with None => m' = m /\ p' = p | Some _ => exists x, p' = Some (Heap x) end ->
     keeps st st' -> get_until st a l = Ok (st', o) -> okd c st' -> fd st' = k -> drel w c k g I P (f' (m', st', o)) (f (st', o))) ->
  drel w c k g I P (bind (take_until m st a l) f') (bind (get_until st a l) f).
Proof.
  intros H K F Gl R. destruct (get_until st a l) as [[st' o]| |] eqn:G.
  - destruct (at_until _ _ _ _ _ _ _ _ _ _ H G) as (m' & p' & -> & H' & Q). cbn [bind].
    pose proof (get_until_stays _ _ _ _ _ Gl G) as St. apply (R m' p'); auto; [apply St|eapply okd_stays; eauto|]. rewrite (proj1 (proj1 St)). trivial.
  - pose proof (take_until_bad m st a l (at_touch _ _ _ _ _ H)) as B. rewrite G in B. rewrite B. reflexivity.
  - pose proof (take_until_bad m st a l (at_touch _ _ _ _ _ H)) as B. rewrite G in B. rewrite B. reflexivity.
Qed.
Lemma drel_until_ref {X A} w c k (g : X -> A) I P p m d e st a l f' f : at_work w p m d e -> okd c st -> fd st = k -> Forall StreamProofs.good_chunk l ->
  (forall m' p' st' o, at_work w p' m' d e -> okd c st' -> fd st' = k -> drel w c k g I P (f' (m', st', o)) (f (st', o))) ->
  drel w c k g I P (bind (take_until_ref m st a l) f') (bind (get_until_ref st a l) f).
Proof.
  intros H K F Gl R. destruct (get_until_ref st a l) as [[st' o]| |] eqn:G.
  - destruct (at_until_ref _ _ _ _ _ _ _ _ _ _ H G) as (m' & p' & -> & H'). cbn [bind].
    assert (St : stays st st') by (split; [eapply get_until_ref_keeps; eauto|split; [intros N; eapply get_ref_near; eauto|intros t Wn; exact (until_window _ _ _ _ _ _ _ _ _ _ _ Wn G)]]). apply (R m' p'); auto; [eapply okd_stays; eauto|]. rewrite (proj1 (proj1 St)). trivial.
  - pose proof (take_until_ref_bad m st a l (at_touch _ _ _ _ _ H)) as B. rewrite G in B. rewrite B. reflexivity.
  - pose proof (take_until_ref_bad m st a l (at_touch _ _ _ _ _ H)) as B. rewrite G in B. rewrite B. reflexivity.
Qed.
Lemma drel_keep {X A} w c k (g : X -> A) I P x m d e f' r : at_work w (Some (Heap x)) m d e ->
  (forall m', at_work w None m' d (x :: e) -> drel w c k g I P (f' (m', x)) r) -> drel w c k g I P (bind (keep_chunk m) f') r.
Proof. intros H R. destruct (at_keep _ _ _ _ _ H) as (m' & -> & H'). cbn [bind]. auto. Qed.
Lemma drel_release {X A} w c k (g : X -> A) I P p b m d e f' r : at_work w p m d (b :: e) ->
  (forall m', at_work w p m' d e -> drel w c k g I P (f' m') r) -> drel w c k g I P (bind (release m b) f') r.
Proof. intros H R. destruct (at_release _ _ _ _ _ _ H) as (m' & -> & H'). cbn [bind]. auto. Qed.
Lemma drel_same {X A} w c k (g : X -> A) (I : X -> book -> Prop) P m x y : y = g x -> I x m -> okd c (P (g x)) -> fd (P (g x)) = k ->
  drel w c k g I P (Ok (m, Some x)) (Ok (Some y)).
Proof. intros ->. cbn [drel]. auto. Qed.

Lemma which_keeps {A} : forall (l : list (bytes * A)) st d st' x, which st l d = Ok (st', x) -> keeps st st'.
Proof.
  induction l as [|[t y] l IH]; intros st d st' x H; cbn [which] in H.
  - injection H as <- _. apply keeps_refl.
  - destruct (stream_inspect st t) as [[s v]| |] eqn:E; cbn [bind] in H; try discriminate. apply inspect_keeps in E.
    destruct (0 <? v); [injection H as <- _; trivial|]. eapply keeps_trans; eauto.
Qed.
Lemma which_window {A} t : forall (l : list (bytes * A)) st d st' x, which st l d = Ok (st', x) -> window t st -> window t st'.
Proof.
  induction l as [|[u y] l IH]; intros st d st' x H Wn; cbn [which] in H.
  - injection H as <- _. exact Wn.
  - destruct (stream_inspect st u) as [[s v]| |] eqn:E; cbn [bind] in H; try discriminate. apply (inspect_window t true _ _ _ _ Wn) in E.
    destruct (0 <? v); [injection H as <- _; trivial|]. eapply IH; eauto.
Qed.
Lemma which_stays {A} (l : list (bytes * A)) st d st' x : Forall shortc (map fst l) -> which st l d = Ok (st', x) -> stays st st'.
Proof. intros G E. split; [eapply which_keeps; eauto|]. split; [intros N; eapply which_near; eauto|]. intros t Wn. eapply which_window; eauto. Qed.
Ltac keep E := match type of E with stays ?s ?s' =>
  let K' := fresh "K" in let F' := fresh "F" in
  match goal with K : okd ?z s, F : fd s = ?k |- _ =>
    assert (K' : okd z s') by (eapply okd_stays; [exact E|exact K]); assert (F' : fd s' = k) by (rewrite (proj1 (proj1 E)); exact F); clear E end end.
Ltac kept := match goal with
  | E : stream_peek _ _ = Ok _ |- _ => apply inspect_stays in E; [keep E|shorts]
  | E : stream_inspect _ _ = Ok _ |- _ => apply inspect_stays in E; [keep E|shorts]
  | E : stream_remains _ = Ok _ |- _ => apply remains_stays in E; keep E
  | E : consume_spaces _ = Ok _ |- _ => apply spaces_stays in E; keep E
  | E : which _ _ _ = Ok _ |- _ => apply which_stays in E; [keep E|shorts]
  end.
Ltac accepted st := let E := fresh "E" in pose proof (accept_stays st) as E; keep E.
Ltac next2 := apply drel_bind; let st := fresh "st" in let v := fresh "v" in let E := fresh "E" in intros [st v] E; cbv beta iota; kept.
Ltac next1 := apply drel_bind; let st := fresh "st" in let E := fresh "E" in intros st E; cbv beta iota; kept.
(** the message is not one about elements *)
Lemma not_element text : existsb (bytes_eqb text) element_errors = false -> @nil nat <> [] <-> In text element_errors.
Proof.
  intros H. split; [congruence|]. intros X. exfalso. assert (Y : existsb (bytes_eqb text) element_errors = true); [|congruence].
  apply existsb_exists. exists text. split; trivial. apply bytes_eqb_refl.
Qed.
Lemma is_element text (e : list nat) : existsb (bytes_eqb text) element_errors = true -> e <> [] -> e <> [] <-> In text element_errors.
Proof.
  intros H N. split; trivial. intros _. apply existsb_exists in H as (x & X & E). apply bytes_eqb_eq in E. now subst x.
Qed.
Ltac failing := eapply drel_fail; [eassumption|eassumption|eassumption|lia|apply not_element; vm_compute; reflexivity].
