(** File streams keep close to their buffer; telling an error copies from inside it (C60). *)
From Coq Require Import Permutation Lia.
From Verif Require Import Prelude StrModel StrSpec StrProofs AttrModel TreeModel StreamModel StreamProofs ParseModel ParseProofs ParseProofs2
  FsafeProofs FsafeProofs2 FsafeProofs3.
From Verif Require Import RepModel RepSpec FrepSpec RepProofs RepProofs2 RepProofs3 FwinProofs.
Open Scope Z_scope.
Local Arguments Z.of_nat : simpl never.
Local Arguments Z.to_nat : simpl never.
Local Arguments Z.add : simpl never.
Local Arguments Z.sub : simpl never.
Local Arguments Z.eqb : simpl never.
Local Arguments Z.ltb : simpl never.
Local Arguments Z.leb : simpl never.

(** the stream reads a file, and is not far behind what was read *)
Definition alive (content : bytes) (st : stream) : Prop := (exists s m, FsafeProofs.live st s m) /\ window content st.
Definition fits (content : bytes) (st : stream) : Prop := alive content st /\ s_idx st <= s_size st + 10.
Definition exactly (content : bytes) (st : stream) : Prop := (exists s b, nrm st s b) /\ window content st.
Section S.
Context {content : bytes}.
Lemma exactly_fits st : exactly content st -> fits content st.
Proof.
  intros ((s & b & N) & Wn). split; [split; [exists s; eexists; left; eauto|exact Wn]|]. destruct N as (w & f & (pre & post & _ & _ & I & Z & _) & _). lia.
Qed.
Lemma alive_facts st : alive content st -> 0 <= s_idx st /\ 0 <= s_size st /\ s_size st < Z.of_nat (length (s_buf st)) /\ fd st = true.
Proof.
  intros ((s & m & [(b & (w & f & (pre & post & K & B & I & Z & Lb & Ls & _) & _) & _)|[(post & K & B & Z & Io & Lb & Ls & _) _]]) & _);
    unfold fd; rewrite K; repeat split; lia.
Qed.
Lemma exactly_back st k : exactly content st -> 0 <= k -> k < s_idx st -> exactly content (stream_move st k).
Proof.
  intros ((s & b & (w & f & (pre & post & K & B & I & Z & Lb & Ls & L64) & _ & _)) & Wn) Hk Lk. split; [|exact Wn].
  destruct (split_len (Z.to_nat k) pre ltac:(lia)) as (p & u & -> & Lp). rewrite app_length in *.
  eexists _, _. exists (u ++ w), f. split; [|split; reflexivity]. exists p, post.
  unfold stream_move, stream_accept. cbn [set_pos s_kind s_buf s_size s_idx s_bufsize]. rewrite B in *.
  rewrite !app_length in *. rewrite <- !app_assoc in *. repeat split; try assumption; try lia.
Qed.

(** ** reading *)
Lemma near_inspect acc st c st' v : alive content st -> solid c -> common_inspect acc st c = Ok (st', v) -> s_idx st' <= s_size st' + Z.of_nat (length c) /\
  (acc = false -> (0 <? v) = true -> s_prev st' = Z.of_nat (length c)).
Proof.
  intros ((s & m & L) & _) Sc H. unfold common_inspect in H. cbv zeta in H.
  assert (Look : forall st0, (acc = true -> s_idx st0 <= s_size st0) -> s_idx st0 <= s_size st0 ->
    (p <- ptr_at (s_buf st0) (s_idx st0) ;; r <- axl_memcmp (cs c) p (Z.of_nat (length c)) ;;
     if (r : bool) then Ok (if acc then stream_accept (set_pos st0 (s_idx st0) (Z.of_nat (length c))) else set_pos st0 (s_idx st0) (Z.of_nat (length c)), 1)
     else Ok (st0, 0)) = Ok (st', v) -> s_idx st' <= s_size st' + Z.of_nat (length c) /\
     (acc = false -> (0 <? v) = true -> s_prev st' = Z.of_nat (length c))).
  { intros st0 _ L0 E. apply RepProofs3.bind_inv in E as (p & _ & E). apply RepProofs3.bind_inv in E as (r & _ & E).
    destruct r; injection E as <- <-; [destruct acc; cbn; split; (lia || discriminate || reflexivity)|split; [lia|discriminate]]. }
  destruct (Z.ltb_spec (s_size st) (Z.of_nat (length c) + s_idx st)) as [C|C]; cbn [bind] in H.
  - destruct (pre_live _ _ _ L) as (st1 & more & m' & P & (b & N & _) & _). rewrite P in H. cbn [bind] in H.
    assert (Ex : s_idx st1 <= s_size st1) by (destruct N as (w & f & (pre & post & _ & _ & I & Z & _) & _); lia).
    destruct more; cbn [negb bind] in H; [apply (Look st1); trivial|]. injection H as <- <-. split; [lia|discriminate].
  - apply (Look st); trivial; lia.
Qed.
Lemma inspect_fits st c st' v : fits content st -> solid c -> (length c <= 10)%nat -> stream_inspect st c = Ok (st', v) -> fits content st'.
Proof.
  intros (A & _) Sc Lc E. pose proof A as ((s & m & L) & Wn). destruct (inspect_live st s m c L Sc) as (st1 & v1 & s1 & m1 & E1 & L1 & _).
  pose proof E as E0. rewrite E1 in E. injection E as <- <-. split; [split; [exists s1, m1; exact L1|exact (inspect_window _ true _ _ _ _ Wn E0)]|].
  destruct (near_inspect true _ _ _ _ A Sc E0). lia.
Qed.
Lemma inspect_alive st c st' v : alive content st -> solid c -> stream_inspect st c = Ok (st', v) -> alive content st'.
Proof.
  intros ((s & m & L) & Wn) Sc E. destruct (inspect_live st s m c L Sc) as (st1 & v1 & s1 & m1 & E1 & L1 & _).
  pose proof E as E0. rewrite E1 in E. injection E as <- <-. split; [exists s1, m1; exact L1|exact (inspect_window _ true _ _ _ _ Wn E0)].
Qed.
Lemma several_fits : forall l st i z st' v, Forall (fun c => solid c /\ (length c <= 10)%nat) l -> fits content st -> inspect_several st l i z = Ok (st', v) -> fits content st'.
Proof.
  induction l as [|c l IH]; intros st i z st' v G K H; cbn [inspect_several] in H.
  - injection H as <- <-. exact K.
  - destruct (stream_inspect st c) as [[st1 x]| |] eqn:E; cbn [bind] in H; try discriminate.
    pose proof (Forall_inv G) as (Sc & Lc). apply inspect_fits in E; trivial. apply Forall_inv_tail in G.
    destruct (x =? -1); [|destruct (x =? 0)]; [eapply IH; eauto|eapply IH; eauto|injection H as <- _; exact E].
Qed.
Lemma several_alive : forall l st i z st' v, Forall solid l -> alive content st -> inspect_several st l i z = Ok (st', v) -> alive content st'.
Proof.
  induction l as [|c l IH]; intros st i z st' v G K H; cbn [inspect_several] in H.
  - injection H as <- <-. exact K.
  - destruct (stream_inspect st c) as [[st1 x]| |] eqn:E; cbn [bind] in H; try discriminate.
    apply inspect_alive in E; [|trivial|exact (Forall_inv G)]. apply Forall_inv_tail in G.
    destruct (x =? -1); [|destruct (x =? 0)]; [eapply IH; eauto|eapply IH; eauto|injection H as <- _; exact E].
Qed.
Lemma peek_fits st c st' v : fits content st -> solid c -> (length c <= 10)%nat -> stream_peek st c = Ok (st', v) ->
  exactly content st' /\ ((0 <? v) = true -> fits content (stream_accept st')).
Proof.
  intros (A & _) Sc Lc E. pose proof A as ((s & m & L) & Wn). destruct (peek_live st s m c L Sc) as (st1 & v1 & b & E1 & N & _ & Y & _).
  pose proof E as E0. rewrite E1 in E. injection E as <- <-. apply (inspect_window _ false _ _ _ _ Wn) in E1. split; [split; [exists s, b; exact N|exact E1]|]. intros V.
  destruct (Y V) as (s' & m' & L' & _). split; [split; [exists s', m'; exact L'|exact E1]|].
  destruct (near_inspect false _ _ _ _ A Sc E0) as (_ & P). specialize (P eq_refl V).
  destruct N as (w & f & (pre & post & _ & _ & I & Z & _) & _). cbn. lia.
Qed.
Lemma remains_fits st st' v : fits content st -> stream_remains st = Ok (st', v) -> exactly content st'.
Proof.
  intros (((s & m & L) & Wn) & _) E. pose proof (remains_window _ _ _ _ Wn E) as Wn'. split; [|exact Wn']. unfold stream_remains in E. destruct (Z.leb_spec (s_size st) (s_idx st)) as [H|H].
  - destruct (pre_live _ _ _ L) as (st1 & more & m' & P & (b & N & _) & _). rewrite P in E. injection E as <- _. exists s, b. exact N.
  - injection E as <- _. destruct L as [(b & N & _)|[(post & _ & _ & _ & Io & _) _]]; [exists s, b; exact N|lia].
Qed.
Lemma spaces_fits st st' : fits content st -> consume_spaces st = Ok st' -> exactly content st'.
Proof.
  intros (((s & m & L) & Wn) & _) E. pose proof (spaces_window _ _ _ Wn E) as Wn'. split; [|exact Wn']. destruct (spaces_live _ _ _ L) as (st1 & s1 & m1 & E1 & _ & _ & _ & (b & N) & _).
  rewrite E1 in E. injection E as <-. exists s1, b. exact N.
Qed.
Lemma until_exactly acc ref chunks st st' o : alive content st -> Forall good_chunk chunks -> (ref = true -> acc = true) ->
  until_loop (turns st) st chunks acc ref 0 (s_size st - s_idx st) false = Ok (st', o) -> exactly content st'.
Proof.
  intros ((s & m & [(b & N & _)|[O _]]) & Wn) G R E; (split; [|exact (until_window _ _ _ _ _ _ _ _ _ _ _ Wn E)]).
  - destruct (until_nrm acc ref chunks st s b R G N) as (st1 & o1 & E1 & b' & _ & Q). rewrite E1 in E. injection E as <- <-.
    destruct Q as [(_ & N')|(t & c & s' & _ & _ & _ & N' & _)]; eexists _, _; exact N'.
  - destruct (until_over acc ref chunks st s O) as (st1 & E1 & N'). rewrite E1 in E. injection E as <- <-. eexists _, _; exact N'.
Qed.

(** ** telling *)
Lemma sub_inside st off n : alive content st -> 0 <= off -> 0 <= n -> off + n <= s_size st -> exists t, mem_sub (s_buf st) off n = Ok t.
Proof.
  intros A H1 H2 H3. destruct (alive_facts _ A) as (A1 & A2 & A3 & _). unfold mem_sub. destruct (_ || _) eqn:E; [|eexists; reflexivity].
  rewrite !orb_true_iff, !Z.ltb_lt in E. lia.
Qed.
Lemma following_there w p m e st n : told w p m e -> alive content st -> 0 < n -> get_following m st n <> UB.
Proof.
  intros H K Pn. unfold get_following. rewrite (told_touch _ _ _ _ H). cbn [bind].
  destruct (Z.leb_spec (s_size st) (s_idx st)) as [C|C]; [discriminate|]. cbv zeta.
  destruct (drop_follow _ _ _ _ H) as (m1 & R & _). rewrite R. cbn [bind]. unfold take. cbv beta iota.
  destruct (alive_facts _ K) as (A1 & A2 & A3 & _).
  match goal with |- context [mem_sub _ _ ?k] => destruct (sub_inside st (s_idx st) k K) as (t & M) end;
    [lia|destruct (Z.ltb_spec (s_size st) (n + s_idx st)); lia|destruct (Z.ltb_spec (s_size st) (n + s_idx st)); lia|].
  rewrite M. discriminate.
Qed.
Lemma near_there w p m e st n : told w p m e -> fits content st -> 10 <= n -> get_near_to m st n <> UB.
Proof.
  intros H (K & Lk) Pn. unfold get_near_to. rewrite (told_touch _ _ _ _ H). cbn [bind]. cbv zeta.
  destruct (drop_near _ _ _ _ H) as (m1 & R & _). rewrite R. cbn [bind]. unfold take. cbv beta iota.
  destruct (alive_facts _ K) as (A1 & A2 & A3 & _).
  match goal with |- context [mem_sub _ ?i ?k] => destruct (sub_inside st i k K) as (t & M) end;
    try (destruct (Z.leb_spec (s_idx st - n) 0); destruct (Z.leb_spec (s_size st - 1) (s_idx st + n)); lia).
  rewrite M. discriminate.
Qed.
Lemma any_ok st : fits content st -> ok [] st.
Proof. intros (K & _) F. destruct (alive_facts _ K) as (_ & _ & _ & X). congruence. Qed.
Lemma new_there w b p m e st code text : idle w b p m e -> fits content st -> error_new m st code text <> UB.
Proof.
  intros H K. unfold error_new. destruct (wanted m) eqn:W; [|discriminate]. apply idle_told in H.
  destruct (take m) as [m1 b1] eqn:T1. cbn [bind].
  assert (H1 : told w p m1 (b1 :: e)). { apply told_take in H. unfold take in *. injection T1 as <- <-. exact H. }
  destruct (get_following_ok [] _ _ _ _ st 10 H1 (any_ok _ K)) as [(G & _)|(m2 & t & G & H2 & _)]; [lia| |]; rewrite G; cbn [bind].
  - exfalso. eapply following_there; [exact H1|exact (proj1 K)| |exact G]. lia.
  - destruct (get_near_ok [] _ _ _ _ st 10 H2 (any_ok _ K)) as [(G' & _)|(m3 & t' & G' & _)]; [lia| |]; rewrite G'; cbn [bind].
    + exfalso. eapply near_there; [exact H2|exact K| |exact G']. lia.
    + discriminate.
Qed.
Lemma fail_there {A} w b p m e st code text : idle w b p m e -> fits content st -> p <> Some Pool ->
  exists m', fail (A := A) m st code text = Ok (m', None) /\ told_in content m'.
Proof.
  intros H K Np. unfold fail. destruct (error_new_ok [] _ _ _ _ _ st code text H (any_ok _ K)) as [(G & _)|(m1 & G & H1 & _)].
  - exfalso. exact (new_there _ _ _ _ _ _ code text H K G).
  - rewrite G. cbn [bind]. destruct (stream_free_ok _ _ _ _ H1 Np) as (m2 & R & _ & Re & _). rewrite R. cbn [bind]. exists m2. split; [reflexivity|].
    unfold told_in. rewrite Re. destruct (alive_facts _ (proj1 K)). destruct K as ((_ & Wn) & Li). eapply new_window; [exact H|exact Wn|lia|exact G].
Qed.
Lemma report_there {A} w b p m st code text : idle w b p m [] -> fits content st -> p <> Some Pool ->
  exists m', (m <- error_report m st code text ;; m <- stream_free m ;; Ok (m, @None A)) = Ok (m', None) /\ told_in content m'.
Proof.
  intros H K Np. destruct (error_report_ok [] _ _ _ _ _ st code text H (any_ok _ K)) as [(G & _)|(m1 & G & H1 & _)].
  - exfalso. unfold error_report in G. apply idle_told in H.
    destruct (get_near_ok [] _ _ _ _ st 100 H (any_ok _ K)) as [(G' & _)|(m3 & t' & G' & _)]; [lia| |].
    + eapply near_there; [exact H|exact K| |exact G']. lia.
    + rewrite G' in G. cbn [bind] in G. destruct (wanted m3); [unfold take in G|]; discriminate.
  - rewrite G. cbn [bind]. destruct (stream_free_ok _ _ _ _ H1 Np) as (m2 & R & _ & Re & _). rewrite R. cbn [bind]. exists m2. split; [reflexivity|].
    unfold told_in. rewrite Re. destruct (alive_facts _ (proj1 K)). destruct K as ((_ & Wn) & Li). eapply report_window; [exact H|exact Wn|lia|exact G].
Qed.

(** ** the relation *)
Definition frel {A} (I : book -> Prop) (P : A -> stream) (r' : res (book * option A)) (r : res (option A)) : Prop :=
  match r' with
  | Ok (m, Some x) => r = Ok (Some x) /\ I m /\ fits content (P x)
  | Ok (m, None) => r = Ok None /\ told_in content m
  | NoFuel => r = NoFuel
  | UB => r = UB
  end.
Lemma frel_bind {A B} I (P : A -> stream) (e : res B) (f' : B -> res (book * option A)) (f : B -> res (option A))  :
  (forall x, e = Ok x -> frel I P (f' x) (f x)) -> frel I P (bind e f') (bind e f).
Proof. intros H. destruct e as [x| |]; cbn [bind]; [now apply H|reflexivity|reflexivity]. Qed.
Lemma frel_bindm {A B} I J (P : A -> stream) (Q : B -> stream) e' e (f' : book * B -> res (book * option A)) (f : B -> res (option A)) :
  frel J Q e' e ->
  (forall m x, J m -> fits content (Q x) -> frel I P (f' (m, x)) (f x)) -> frel I P (bindm e' f') (bindo e f).
Proof.
  intros R H. destruct e' as [[m [x|]]| |]; cbn [frel bindm] in *.
  - destruct R as (-> & J0 & K0). cbn [bindo]. auto.
  - destruct R as (-> & T). split; [reflexivity|exact T].
  - rewrite R. reflexivity.
  - rewrite R. reflexivity.
Qed.
Lemma frel_fail {A} w I (P : A -> stream) b p m e st code text : idle w b p m e -> p <> Some Pool -> fits content st ->
  frel I P (fail m st code text) (Ok None).
Proof. intros H Np K. destruct (@fail_there A _ _ _ _ _ st code text H K Np) as (m' & -> & T). split; [reflexivity|exact T]. Qed.
Lemma frel_until {A} w I (P : A -> stream) b p m e st a c f' f : idle w b p m e -> p <> Some Pool -> alive content st -> Forall good_chunk c ->
  (forall m' p' st' o, idle w b p' m' e ->
     match o with None => m' = m /\ p' = p | Some _ => if b then p' = Some Pool else exists x, p' = Some (Heap x) end ->
     fits content st' -> frel I P (f' (m', st', o)) (f (st', o))) ->
  frel I P (bind (take_until m st a c) f') (bind (get_until st a c) f).
Proof.
  intros H Np K G0 R. destruct (get_until st a c) as [[st' o]| |] eqn:G.
  - destruct (take_until_ok _ _ _ _ _ _ _ _ _ _ H Np G) as (m' & p' & -> & H' & Q). cbn [bind].
    apply (R m' p'); auto. apply exactly_fits. eapply until_exactly; [exact K|exact G0| |exact G]. discriminate.
  - pose proof (take_until_bad m st a c (idle_touch _ _ _ _ _ H)) as B. rewrite G in B. rewrite B. reflexivity.
  - pose proof (take_until_bad m st a c (idle_touch _ _ _ _ _ H)) as B. rewrite G in B. rewrite B. reflexivity.
Qed.
Lemma frel_until_ref {A} w I (P : A -> stream) b p m e st c f' f : idle w b p m e -> p <> Some Pool -> alive content st -> Forall good_chunk c ->
  (forall m' p' st' o, idle w b p' m' e -> p' <> Some Pool -> fits content st' -> frel I P (f' (m', st', o)) (f (st', o))) ->
  frel I P (bind (take_until_ref m st true c) f') (bind (get_until_ref st true c) f).
Proof.
  intros H Np K G0 R. destruct (get_until_ref st true c) as [[st' o]| |] eqn:G.
  - destruct (take_until_ref_ok _ _ _ _ _ _ _ _ _ _ H Np G) as (m' & p' & -> & H' & Q). cbn [bind].
    apply (R m' p'); auto. apply exactly_fits. eapply until_exactly; [exact K|exact G0| |exact G]. trivial.
  - pose proof (take_until_ref_bad m st true c (idle_touch _ _ _ _ _ H)) as B. rewrite G in B. rewrite B. reflexivity.
  - pose proof (take_until_ref_bad m st true c (idle_touch _ _ _ _ _ H)) as B. rewrite G in B. rewrite B. reflexivity.
Qed.
Lemma frel_release {A} w I (P : A -> stream) b p m x e f' r : idle w b p m (x :: e) -> (forall m', idle w b p m' e -> frel I P (f' m') r) ->
  frel I P (bind (release m x) f') r.
Proof. intros H R. destruct (release_idle _ _ _ _ _ _ H) as (m' & -> & H'). cbn [bind]. auto. Qed.
Lemma frel_nullify {A} w I (P : A -> stream) b p m e f' r : idle w b p m e -> (forall m', idle w b None m' (heap_of p ++ e) -> frel I P (f' m') r) ->
  frel I P (bind (nullify m) f') r.
Proof. intros H R. destruct (nullify_ok _ _ _ _ _ H) as (m' & -> & H'). cbn [bind]. auto. Qed.
Lemma frel_alloc {A} w I (P : A -> stream) b c p m e f' r : idle w b p m e -> (forall m', idle w c p m' e -> frel I P (f' m') r) ->
  frel I P (bind (set_alloc m c) f') r.
Proof. intros H R. destruct (set_alloc_ok _ _ _ _ _ c H) as (m' & -> & H'). cbn [bind]. auto. Qed.
Lemma frel_same {A} (I : book -> Prop) (P : A -> stream) m x : I m -> fits content (P x) -> frel I P (Ok (m, Some x)) (Ok (Some x)).
Proof. intros. cbn [frel]. auto. Qed.
End S.
Arguments frel content {A} I P r' r.
