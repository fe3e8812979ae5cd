(** Reading keeps the stream inside its buffer; the relation between the two parsers (C60). *)
From Coq Require Import Permutation Lia.
From Verif Require Import Prelude StrModel AttrModel TreeModel StreamModel ParseModel RepModel RepProofs RepProofs2.
Open Scope Z_scope.

Definition keeps (st st' : stream) : Prop := fd st' = fd st /\ (forall sz, ok sz st -> ok sz st').
Lemma keeps_refl st : keeps st st. Proof. split; trivial. Qed.
Lemma keeps_trans a b c : keeps a b -> keeps b c -> keeps a c.
Proof. intros (A & B) (C & D). split; [congruence|auto]. Qed.

Lemma bind_inv {A B} (e : res A) (k : A -> res B) v : bind e k = Ok v -> exists a, e = Ok a /\ k a = Ok v.
Proof. destruct e; cbn; intros H; try discriminate. eauto. Qed.
Lemma prebuffer_with_fd h f st st' b : prebuffer_with h f st = Ok (st', b) -> fd st' = true.
Proof.
  unfold prebuffer_with. cbv zeta. intros H. apply bind_inv in H as ([[[b1 bs] sz] e] & _ & H). destruct h as [|t k e0 g].
  - apply bind_inv in H as (b2 & _ & H). apply bind_inv in H as (p & _ & H). apply bind_inv in H as ([good z] & _ & H).
    destruct (negb good); [|destruct (firstn _ f)]; injection H as <- _; reflexivity.
  - apply bind_inv in H as ([[[[[k1 e1] l] b2] sz1] okk] & _ & H). injection H as <- _. reflexivity.
Qed.
Lemma prebuffer_keeps st st' b : prebuffer st = Ok (st', b) -> keeps st st' /\ (fd st = false -> st' = st /\ b = false).
Proof.
  unfold prebuffer. destruct (s_kind st) as [|[f|]|[f|] h] eqn:K; intros H.
  - injection H as <- <-. split; [apply keeps_refl|tauto].
  - assert (F : fd st = true) by (unfold fd; now rewrite K).
    assert (G : fd st' = true).
    { revert H. match goal with |- bind ?e _ = _ -> _ => destruct e as [[[b1 bs] sz]| |] end; cbn [bind]; try discriminate.
      destruct (memcpy_to _ _ _) as [b2| |]; cbn [bind]; try discriminate.
      destruct (firstn _ f); intros H; injection H as <- _; reflexivity. }
    split; [|congruence]. split; [congruence|]. intros sz _ X. congruence.
  - injection H as <- <-. split; [apply keeps_refl|]. unfold fd. now rewrite K.
  - assert (F : fd st = true) by (unfold fd; now rewrite K). apply prebuffer_with_fd in H.
    split; [|congruence]. split; [congruence|]. intros sz _ X. congruence.
  - injection H as <- <-. split; [apply keeps_refl|]. unfold fd. now rewrite K.
Qed.
Lemma ok_pos sz st i p : ok sz st -> (fd st = false -> 0 <= i /\ 0 <= p /\ i + p <= s_size st) -> keeps st (set_pos st i p).
Proof.
  intros K H. split; [reflexivity|]. intros sz' K' F. destruct (K F) as (K0 & K1 & K2 & K3 & K4). destruct (K' F) as (K0' & _ & _ & _ & K4'). destruct (H F) as (H1 & H2 & H3). cbn. repeat (split; [lia|]). exact K4'.
Qed.
Lemma keeps_when st st' : fd st' = fd st -> (forall sz, ok sz st -> keeps st st') -> keeps st st'.
Proof. intros F H. split; trivial. intros sz K. now apply (H sz K). Qed.
Lemma accept_keeps st : keeps st (stream_accept st).
Proof. apply keeps_when; [reflexivity|]. intros sz K. apply (ok_pos sz); trivial. intros F. destruct (K F). lia. Qed.
Lemma move_keeps st i : (forall sz, ok sz st -> fd st = false -> 0 <= i <= s_size st) -> keeps st (stream_move st i).
Proof.
  intros H. apply keeps_when; [reflexivity|]. intros sz K. unfold stream_move.
  change (keeps st (set_pos st i 0)). apply (ok_pos sz); trivial. intros F. specialize (H sz K F). lia.
Qed.

Lemma inspect_keeps acc st c st' v : common_inspect acc st c = Ok (st', v) -> keeps st st'.
Proof.
  unfold common_inspect. cbv zeta. intros H.
  destruct (s_size st <? Z.of_nat (length c) + s_idx st) eqn:C; cbn [bind] in H.
  - destruct (prebuffer st) as [[st1 more]| |] eqn:P; cbn [bind] in H; try discriminate.
    apply prebuffer_keeps in P as (P & P'). destruct more; cbn [negb bind] in H.
    + destruct (fd st) eqn:F; [|destruct (P' eq_refl); discriminate].
      assert (G : fd st' = true).
      { destruct P as (P & _). rewrite F in P. destruct (ptr_at _ _) as [p| |]; cbn [bind] in H; try discriminate.
        destruct (axl_memcmp _ _ _) as [[]| |]; cbn [bind] in H; try discriminate; injection H as <- _; destruct acc; exact P. }
      split; [congruence|]. intros sz _ X. congruence.
    + injection H as <- <-. exact P.
  - destruct (ptr_at _ _) as [p| |]; cbn [bind] in H; try discriminate.
    destruct (axl_memcmp _ _ _) as [[]| |]; cbn [bind] in H; try discriminate; injection H as <- _; [|apply keeps_refl].
    apply keeps_when; [destruct acc; reflexivity|]. intros sz K.
    assert (K1 : keeps st (set_pos st (s_idx st) (Z.of_nat (length c)))).
    { apply (ok_pos sz); trivial. intros F. destruct (K F) as (K0 & A & B & D & E). apply Z.ltb_ge in C. lia. }
    destruct acc; trivial. eapply keeps_trans; [exact K1|apply accept_keeps].
Qed.
Lemma several_keeps : forall l st i z st' v, inspect_several st l i z = Ok (st', v) -> keeps st st'.
Proof.
  induction l as [|c l IH]; intros st i z st' v H; cbn [inspect_several] in H.
  - injection H as <- <-. apply keeps_refl.
  - unfold stream_inspect in H. destruct (common_inspect true st c) as [[st1 x]| |] eqn:E; cbn [bind] in H; try discriminate.
    apply inspect_keeps in E. destruct (x =? -1); [|destruct (x =? 0)].
    + eapply keeps_trans; eauto.
    + eapply keeps_trans; eauto.
    + injection H as <- _. trivial.
Qed.
Lemma remains_keeps st st' b : stream_remains st = Ok (st', b) -> keeps st st'.
Proof.
  unfold stream_remains. destruct (s_size st <=? s_idx st); intros H; [now apply prebuffer_keeps in H|].
  injection H as <- _. apply keeps_refl.
Qed.
Lemma spaces_loop_keeps : forall f st r st', spaces_loop f st r = Ok st' -> (fd st = false -> r = s_size st - s_idx st) -> keeps st st'.
Proof.
  induction f as [|f IH]; intros st r st' H R; [discriminate|]. cbn [spaces_loop] in H. cbv zeta in H.
  destruct (Z.ltb_spec (r - 1) 0) as [C|C]; cbn [bind] in H.
  - destruct (prebuffer st) as [[st1 more]| |] eqn:P; cbn [bind] in H; try discriminate.
    apply prebuffer_keeps in P as (P & P'). destruct more; cbn [bind] in H; [|injection H as <-; trivial].
    destruct (fd st) eqn:F; [|destruct (P' eq_refl); discriminate].
    assert (F1 : fd st1 = true) by (destruct P; congruence).
    destruct (rd _ _) as [c| |]; cbn [bind] in H; try discriminate.
    destruct (is_ws c); [|injection H as <-; trivial].
    apply IH in H; [|intros X; change (fd st1 = false) in X; congruence].
    destruct H as (H & _). change (fd st' = fd st1) in H. split; [congruence|]. intros sz _ X. congruence.
  - destruct (rd _ _) as [c| |]; cbn [bind] in H; try discriminate.
    destruct (is_ws c); [|injection H as <-; apply keeps_refl].
    assert (K : keeps st (set_pos st (s_idx st + 1) 0)).
    { apply keeps_when; [reflexivity|]. intros sz K. apply (ok_pos sz); trivial. intros F. destruct (K F). rewrite (R F) in C. lia. }
    eapply keeps_trans; [exact K|]. eapply IH; [exact H|]. intros F. change (fd st = false) in F. rewrite (R F). cbn. lia.
Qed.
Lemma spaces_keeps st st' : consume_spaces st = Ok st' -> keeps st st'.
Proof. intros H. eapply spaces_loop_keeps; [exact H|]. trivial. Qed.

Lemma set_at_len c : forall b k b', set_at b k c = Some b' -> length b' = length b.
Proof.
  induction b as [|x b IH]; intros [|k] b' H; cbn in H; try discriminate.
  - now injection H as <-.
  - destruct (set_at b k c) eqn:E; [|discriminate]. injection H as <-. cbn. f_equal. eauto.
Qed.
Lemma wr_len b i c b' : wr b i c = Ok b' -> length b' = length b.
Proof.
  unfold wr. destruct (i <? 0); [discriminate|]. destruct (set_at b (Z.to_nat i) c) eqn:E; cbn; [|discriminate].
  intros H. injection H as <-. eapply set_at_len; eauto.
Qed.
Lemma match_chunks_fit : forall c b size pos it i n, match_chunks c b size pos it = Ok (Some (i, n)) -> 0 < n /\ pos + n <= size.
Proof.
  induction c as [|x c IH]; intros b size pos it i n H; cbn [match_chunks] in H; [discriminate|]. cbv zeta in H.
  destruct ((0 <? chunk_len x) && (pos + chunk_len x <=? size)) eqn:E.
  - apply andb_true_iff in E as (E1 & E2). apply Z.ltb_lt in E1. apply Z.leb_le in E2.
    match type of H with bind ?e _ = _ => destruct e as [[]| |] end; cbn [bind] in H; try discriminate.
    + injection H as <- <-. tauto.
    + eauto.
  - cbn [bind] in H. eauto.
Qed.
Lemma match_at_fit c b size pos i n : match_at c b size pos = Ok (Some (i, n)) -> pos < size -> 0 < n /\ pos + n <= size.
Proof.
  unfold match_at. intros H P. match type of H with bind ?e _ = _ => destruct e as [[]| |] end; cbn [bind] in H; try discriminate.
  - injection H as <- <-. lia.
  - eapply match_chunks_fit; eauto.
Qed.
Lemma result_fd st a r i n t st' o : until_result st a r i n t = Ok (st', o) -> fd st' = fd st.
Proof.
  unfold until_result. destruct (mem_sub _ _ _) as [x| |]; cbn [bind]; try discriminate.
  match goal with |- bind ?e _ = _ -> _ => destruct e as [b| |] end; cbn [bind]; try discriminate.
  intros H. injection H as <- _. reflexivity.
Qed.
Lemma result_keeps st a r i n t st' o : until_result st a r i n t = Ok (st', o) ->
  (forall sz, ok sz st -> fd st = false -> 0 <= i /\ 0 < n /\ s_idx st + i + n <= s_size st) -> keeps st st'.
Proof.
  intros H F. split; [eapply result_fd; eauto|]. intros sz K Fd.
  assert (Fs : fd st = false) by (rewrite <- Fd; symmetry; eapply result_fd; eauto).
  destruct (K Fs) as (K0 & K1 & K2 & K3 & tail & K4). destruct (F sz K Fs) as (F1 & F2 & F3).
  revert H. unfold until_result. destruct (mem_sub _ _ _) as [x| |]; cbn [bind]; try discriminate.
  destruct r.
  - destruct (wr _ _ _) as [b| |] eqn:W; cbn [bind]; try discriminate. intros H. injection H as <- _. cbn. assert (masked b (sz ++ tail)) by (eapply masked_wr; eauto). destruct a; repeat (split; [lia|]); eauto.
  - cbn [bind]. intros H. injection H as <- _. cbn. destruct a; repeat (split; [lia|]); eauto.
Qed.
Lemma until_fd : forall f st c a r i z g st' o, until_loop f st c a r i z g = Ok (st', o) -> fd st' = fd st.
Proof.
  induction f as [|f IH]; intros st c a r i z g st' o H; [discriminate|]. cbn [until_loop] in H. cbv zeta in H.
  assert (B : exists st1 go i1 r1, (if g then Ok (st, true, i, z)
       else if z - 1 <? 0 then
             match s_kind st with
             | MEM => Ok (st, false, i, z - 1)
             | _ => '(st, more) <- prebuffer st;; Ok (st, more, if 0 <? i then i - 1 else i, s_size st - i - 1)
             end
            else Ok (st, true, i, z - 1)) = Ok (st1, go, i1, r1) /\ fd st1 = fd st).
  { destruct g; [repeat eexists|]. destruct (z - 1 <? 0); [|repeat eexists]. destruct (s_kind st) eqn:K; [repeat eexists| |].
    all: destruct (prebuffer st) as [[st1 more]| |] eqn:P; cbn [bind]; try discriminate H.
    all: apply prebuffer_keeps in P as ((P & _) & _); repeat eexists; trivial. }
  destruct B as (st1 & go & i1 & r1 & B & F1). rewrite B in H. cbn [bind] in H.
  destruct go; [|injection H as <- _; trivial].
  destruct (match_at _ _ _ _) as [[[it n]|]| |]; cbn [bind] in H; try discriminate.
  - destruct (_ && _).
    + destruct (prebuffer st1) as [[st2 more]| |] eqn:P; cbn [bind] in H; try discriminate.
      apply prebuffer_keeps in P as ((P & _) & _). destruct more.
      * apply IH in H. congruence.
      * apply result_fd in H. congruence.
    + apply result_fd in H. congruence.
  - apply IH in H. congruence.
Qed.
Lemma until_keeps : forall f st c a r i z st' o, until_loop f st c a r i z false = Ok (st', o) ->
  (fd st = false -> 0 <= i /\ z = s_size st - s_idx st - i) -> keeps st st'.
Proof.
  induction f as [|f IH]; intros st c a r i z st' o H R; [discriminate|].
  destruct (fd st) eqn:F.
  { pose proof (until_fd _ _ _ _ _ _ _ _ _ _ H) as G. split; [congruence|]. intros sz _ X. congruence. }
  destruct (R eq_refl) as (R1 & R2). cbn [until_loop] in H. cbv zeta in H.
  assert (Km : s_kind st = MEM) by (unfold fd in F; destruct (s_kind st); trivial; discriminate).
  rewrite Km in H. destruct (Z.ltb_spec (z - 1) 0) as [C|C]; cbn [bind] in H.
  - injection H as <- _. apply keeps_refl.
  - destruct (match_at _ _ _ _) as [[[it n]|]| |] eqn:M; cbn [bind] in H; try discriminate.
    + apply match_at_fit in M; [|lia]. destruct (_ && _).
      * destruct (prebuffer st) as [[st2 more]| |] eqn:P; cbn [bind] in H; try discriminate.
        apply prebuffer_keeps in P as (_ & P). destruct (P F) as (-> & ->).
        eapply result_keeps; [exact H|]. intros. lia.
      * eapply result_keeps; [exact H|]. intros. lia.
    + eapply IH; [exact H|]. intros _. lia.
Qed.
Lemma get_until_keeps st a c st' o : get_until st a c = Ok (st', o) -> keeps st st'.
Proof. intros H. eapply until_keeps; [exact H|]. lia. Qed.
Lemma get_until_ref_keeps st a c st' o : get_until_ref st a c = Ok (st', o) -> keeps st st'.
Proof. intros H. eapply until_keeps; [exact H|]. lia. Qed.

(** the parser with its book does what the parser does; [I] holds of the book where it
    goes on, [k] tells whether the stream is a file *)
Definition rel {A} (w : bool) (sz : bytes) (I : book -> Prop) (k : bool) (P : A -> stream) (r' : res (book * option A)) (r : res (option A)) : Prop :=
  match r' with
  | Ok (m, Some x) => r = Ok (Some x) /\ I m /\ ok sz (P x) /\ fd (P x) = k
  | Ok (m, None) => r = Ok None /\ dead w k sz m
  | NoFuel => r = NoFuel
  | UB => r = UB \/ k = true
  end.
Definition still (w b : bool) (m : book) : Prop := exists p, p <> Some Pool /\ idle w b p m [].
Definition clean (w b : bool) (m : book) : Prop := idle w b None m [].

Lemma rel_bind {A B} w sz I k (P : A -> stream) (e : res B) (f' : B -> res (book * option A)) (f : B -> res (option A))  :
  (forall x, e = Ok x -> rel w sz I k P (f' x) (f x)) -> rel w sz I k P (bind e f') (bind e f).
Proof. intros H. destruct e as [x| |]; cbn [bind]; [now apply H|now left|reflexivity]. Qed.
Lemma rel_bindm {A B} w sz I J k (P : A -> stream) (Q : B -> stream) e' e (f' : book * B -> res (book * option A)) (f : B -> res (option A)) :
  rel w sz J k Q e' e ->
  (forall m x, J m -> ok sz (Q x) -> fd (Q x) = k -> rel w sz I k P (f' (m, x)) (f x)) -> rel w sz I k P (bindm e' f') (bindo e f).
Proof.
  intros R H. destruct e' as [[m [x|]]| |]; cbn [rel bindm] in *.
  - destruct R as (-> & J0 & K0 & F0). cbn [bindo]. auto.
  - destruct R as (-> & D). cbn [bindo]. split; trivial.
  - destruct R as [->| ->]; cbn [bindo]; [now left|now right].
  - rewrite R. reflexivity.
Qed.
Lemma rel_fail {A} w sz I k (P : A -> stream) b p m e st code text : idle w b p m e -> p <> Some Pool -> ok sz st -> fd st = k -> code < 0 -> (length e <= 1)%nat ->
  (e <> [] -> code = -2 /\ text = no_name) -> rel w sz I k P (fail m st code text) (Ok None).
Proof.
  intros H Np K F C L N. destruct (@fail_ok A sz _ _ _ _ _ st code text H K Np C L N) as [(-> & E)|(m' & -> & D)]; cbn [rel]; [right; congruence|].
  split; trivial. now rewrite <- F.
Qed.
Lemma rel_until {A} w sz I k (P : A -> stream) b p m e st a c f' f : idle w b p m e -> p <> Some Pool -> ok sz st -> fd st = k ->
  (forall m' p' st' o, idle w b p' m' e ->
     match o with None => m' = m /\ p' = p | Some _ => if b then p' = Some Pool else exists x, p' = Some (Heap x) end ->
     ok sz st' -> fd st' = k -> rel w sz I k P (f' (m', st', o)) (f (st', o))) ->
  rel w sz I k P (bind (take_until m st a c) f') (bind (get_until st a c) f).
Proof.
  intros H Np K F R. destruct (get_until st a c) as [[st' o]| |] eqn:G.
  - destruct (take_until_ok _ _ _ _ _ _ _ _ _ _ H Np G) as (m' & p' & -> & H' & Q). cbn [bind].
    apply get_until_keeps in G as (G1 & G2). apply (R m' p'); auto. congruence.
  - pose proof (take_until_bad m st a c (idle_touch _ _ _ _ _ H)) as B. rewrite G in B. rewrite B. now left.
  - pose proof (take_until_bad m st a c (idle_touch _ _ _ _ _ H)) as B. rewrite G in B. rewrite B. reflexivity.
Qed.
Lemma rel_until_ref {A} w sz I k (P : A -> stream) b p m e st a c f' f : idle w b p m e -> p <> Some Pool -> ok sz st -> fd st = k ->
  (forall m' p' st' o, idle w b p' m' e -> p' <> Some Pool -> ok sz st' -> fd st' = k -> rel w sz I k P (f' (m', st', o)) (f (st', o))) ->
  rel w sz I k P (bind (take_until_ref m st a c) f') (bind (get_until_ref st a c) f).
Proof.
  intros H Np K F R. destruct (get_until_ref st a c) as [[st' o]| |] eqn:G.
  - destruct (take_until_ref_ok _ _ _ _ _ _ _ _ _ _ H Np G) as (m' & p' & -> & H' & Q). cbn [bind].
    apply get_until_ref_keeps in G as (G1 & G2). apply (R m' p'); auto. congruence.
  - pose proof (take_until_ref_bad m st a c (idle_touch _ _ _ _ _ H)) as B. rewrite G in B. rewrite B. now left.
  - pose proof (take_until_ref_bad m st a c (idle_touch _ _ _ _ _ H)) as B. rewrite G in B. rewrite B. reflexivity.
Qed.
