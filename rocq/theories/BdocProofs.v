(** Memory streams keep their kind and their sizes; names of encodings. *)
From Coq Require Import NArith.
From Verif Require Import Prelude StrModel StrSpec StrProofs EscProofs StrProofs2 StrProofs3 AttrModel TreeModel
  StreamModel StreamProofs ParseModel ParseProofs ParseProofs2 XmlSpec BabelModel BabelTables BabelSpec BdocModel BdocSpec.
Open Scope Z_scope.
Open Scope list_scope.

(** ** sizes *)
Definition fixed (st st' : stream) : Prop := s_kind st = MEM -> s_kind st' = MEM /\ s_bufsize st' = s_bufsize st /\ s_size st' = s_size st.
Lemma fixed_refl st : fixed st st.
Proof. intros K. auto. Qed.
Lemma fixed_trans a b c : fixed a b -> fixed b c -> fixed a c.
Proof. intros H1 H2 K. destruct (H1 K) as (K1 & E1 & F1). destruct (H2 K1) as (K2 & E2 & F2). repeat split; congruence. Qed.
Lemma fixed_pos st i p : fixed st (set_pos st i p).
Proof. intros K. auto. Qed.
Lemma fixed_accept st : fixed st (stream_accept st).
Proof. intros K. auto. Qed.
Lemma fixed_move st i : fixed st (stream_move st i).
Proof. intros K. auto. Qed.
Lemma fixed_prebuffer st st' b : prebuffer st = Ok (st', b) -> fixed st st'.
Proof. intros E K. unfold prebuffer in E. rewrite K in E. injection E as <- <-. auto. Qed.
Lemma bind_ok {A B} (r : res A) (k : A -> res B) b : bind r k = Ok b -> exists a, r = Ok a /\ k a = Ok b.
Proof. destruct r; cbn [bind]; intros H; [eauto|discriminate..]. Qed.
Lemma bindo_ok {A B} (r : res (option A)) (k : A -> res (option B)) b : bindo r k = Ok (Some b) -> exists a, r = Ok (Some a) /\ k a = Ok (Some b).
Proof. destruct r as [[a|]| |]; cbn [bindo]; intros H; [eauto|discriminate..]. Qed.
Ltac steps H := repeat (let x := fresh "x" in let E := fresh "E" in apply bind_ok in H; destruct H as (x & E & H)).

Lemma fixed_common acc st c st' v : common_inspect acc st c = Ok (st', v) -> fixed st st'.
Proof.
  unfold common_inspect. cbv zeta. intros H. apply bind_ok in H. destruct H as ([st1 o] & E & H).
  assert (F : fixed st st1).
  { destruct (_ <? _); [|injection E as <- <-; apply fixed_refl]. apply bind_ok in E. destruct E as ([st2 m] & E & H2).
    injection H2 as <- <-. eapply fixed_prebuffer, E. }
  destruct o; [injection H as <- <-; exact F|]. steps H. destruct x0.
  - injection H as <- <-. eapply fixed_trans; [exact F|]. destruct acc; [|apply fixed_pos]. eapply fixed_trans; [apply fixed_pos|apply fixed_accept].
  - injection H as <- <-. exact F.
Qed.
Lemma fixed_inspect st c st' v : stream_inspect st c = Ok (st', v) -> fixed st st'.
Proof. apply fixed_common. Qed.
Lemma fixed_peek st c st' v : stream_peek st c = Ok (st', v) -> fixed st st'.
Proof. apply fixed_common. Qed.
Lemma fixed_several_loop l : forall st it last st' v, inspect_several st l it last = Ok (st', v) -> fixed st st'.
Proof.
  induction l as [|c l IH]; cbn [inspect_several]; intros st it last st' v H; [injection H as <- <-; apply fixed_refl|].
  apply bind_ok in H. destruct H as ([st1 w] & E & H). apply fixed_inspect in E.
  destruct (w =? -1); [eapply fixed_trans; [exact E|eapply IH, H]|]. destruct (w =? 0); [eapply fixed_trans; [exact E|eapply IH, H]|].
  injection H as <- <-. exact E.
Qed.
Lemma fixed_several st l st' v : stream_inspect_several st l = Ok (st', v) -> fixed st st'.
Proof. apply fixed_several_loop. Qed.
Lemma fixed_spaces_loop f : forall st n st', spaces_loop f st n = Ok st' -> fixed st st'.
Proof.
  induction f as [|f IH]; cbn [spaces_loop]; intros st n st' H; [discriminate|]. cbv zeta in H.
  apply bind_ok in H. destruct H as ([[st1 go] m] & E & H).
  assert (F : fixed st st1).
  { destruct (_ <? _); [|injection E as <- <- <-; apply fixed_refl]. apply bind_ok in E. destruct E as ([st2 w] & E & H2).
    injection H2 as <- <- <-. eapply fixed_prebuffer, E. }
  destruct go; [|injection H as <-; exact F]. apply bind_ok in H. destruct H as (c & _ & H).
  destruct (is_ws c); [|injection H as <-; exact F]. apply IH in H. eapply fixed_trans; [exact F|]. eapply fixed_trans; [apply fixed_pos|exact H].
Qed.
Lemma fixed_spaces st st' : consume_spaces st = Ok st' -> fixed st st'.
Proof. apply fixed_spaces_loop. Qed.
Lemma fixed_result st acc ref i n it st' o : until_result st acc ref i n it = Ok (st', o) -> fixed st st'.
Proof. unfold until_result. intros H. steps H. injection H as <- <-. intros K. auto. Qed.
Lemma fixed_until f : forall st chunks acc ref i n again st' o, until_loop f st chunks acc ref i n again = Ok (st', o) -> fixed st st'.
Proof.
  induction f as [|f IH]; cbn [until_loop]; intros st chunks acc ref i n again st' o H; [discriminate|]. cbv zeta in H.
  apply bind_ok in H. destruct H as ([[[st1 go] j] m] & E & H).
  assert (F : fixed st st1).
  { intros K. destruct again; [injection E as <- <- <- <-; auto|]. rewrite K in E.
    destruct (_ <? _); injection E as <- <- <- <-; auto. }
  destruct go; [|injection H as <- <-; exact F]. apply bind_ok in H. destruct H as (x & _ & H).
  destruct x as [[it len]|]; [|apply IH in H; eapply fixed_trans; [exact F|exact H]].
  destruct (_ && _); [|eapply fixed_trans; [exact F|eapply fixed_result, H]].
  apply bind_ok in H. destruct H as ([st2 more] & E2 & H). apply fixed_prebuffer in E2.
  eapply fixed_trans; [exact F|]. eapply fixed_trans; [exact E2|]. destruct more; [eapply IH, H|eapply fixed_result, H].
Qed.
Lemma fixed_get st acc l st' o : get_until st acc l = Ok (st', o) -> fixed st st'.
Proof. apply fixed_until. Qed.
Lemma fixed_get_ref st acc l st' o : get_until_ref st acc l = Ok (st', o) -> fixed st st'.
Proof. apply fixed_until. Qed.
Lemma fixed_pi st d st' d' : consume_pi st d = Ok (Some (st', d')) -> fixed st st'.
Proof.
  unfold consume_pi. intros H. apply bind_ok in H. destruct H as ([st1 v] & E & H). apply fixed_peek in E.
  destruct (0 <? v); [|injection H as <- <-; exact E]. cbv zeta in H.
  apply bind_ok in H. destruct H as ([st2 o] & E2 & H). apply fixed_get in E2. destruct o as [[t m]|]; [|discriminate].
  assert (F : fixed st st2) by (eapply fixed_trans; [exact E|]; eapply fixed_trans; [apply fixed_accept|exact E2]).
  apply bind_ok in H. destruct H as (x & _ & H). destruct x; [discriminate|].
  destruct (_ || _); [injection H as <- <-; exact F|]. destruct (m =? 2); [|discriminate].
  apply bind_ok in H. destruct H as ([st3 o3] & E3 & H). apply fixed_get in E3. destruct o3 as [[t3 m3]|]; [|discriminate].
  injection H as <- <-. eapply fixed_trans; eassumption.
Qed.
Lemma fixed_comments_loop f : forall st d st' d', comments_loop f st d = Ok (Some (st', d')) -> fixed st st'.
Proof.
  induction f as [|f IH]; cbn [comments_loop]; intros st d st' d' H; [discriminate|].
  apply bind_ok in H. destruct H as (st1 & E1 & H). apply fixed_spaces in E1.
  apply bind_ok in H. destruct H as ([st2 v] & E2 & H). apply fixed_inspect in E2.
  apply bindo_ok in H. destruct H as ([[st3 d3] f3] & E3 & H).
  assert (F3 : fixed st2 st3).
  { destruct (0 <? v); [|injection E3 as <- <- <-; apply fixed_refl].
    apply bind_ok in E3. destruct E3 as ([st0 o] & E0 & H0). destruct o as [[t m]|]; [|discriminate].
    injection H0 as <- <- <-. eapply fixed_get_ref, E0. }
  apply bind_ok in H. destruct H as (st4 & E4 & H). apply fixed_spaces in E4.
  apply bind_ok in H. destruct H as ([st5 w] & E5 & H).
  assert (F5 : fixed st4 st5) by (destruct (p_header d3); [eapply fixed_peek, E5|injection E5 as <- <-; apply fixed_refl]).
  apply bindo_ok in H. destruct H as ([[st6 d6] f6] & E6 & H).
  assert (F6 : fixed st5 st6).
  { destruct (0 <? w); [|injection E6 as <- <- <-; apply fixed_refl]. apply bindo_ok in E6. destruct E6 as ([st0 d0] & E0 & H0).
    injection H0 as <- <- <-. eapply fixed_pi, E0. }
  assert (F : fixed st st6) by (repeat (eapply fixed_trans; [eassumption|]); apply fixed_refl).
  destruct f6; [eapply fixed_trans; [exact F|eapply IH, H]|]. apply bind_ok in H. destruct H as (st7 & E7 & H). injection H as <- <-.
  eapply fixed_trans; [exact F|eapply fixed_spaces, E7].
Qed.
Lemma fixed_comments st d st' d' : consume_comments st d = Ok (Some (st', d')) -> fixed st st'.
Proof. apply fixed_comments_loop. Qed.

(** ** names *)
Lemma bytes_pieces c s l : pieces [[c]] s l -> concat l = filter (fun x => negb (Ascii.eqb x c)) s.
Proof.
  induction 1 as [|s p r l C P IH|x s y l C P IH].
  - reflexivity.
  - cbn [cut_at] in C. destruct (after [c] s) as [z|] eqn:A; [|discriminate]. injection C as <- <-.
    apply after_Some in A. subst s. cbn [app filter concat]. rewrite Ascii.eqb_refl. exact IH.
  - cbn [cut_at] in C. destruct (after [c] (x :: s)) as [z|] eqn:A; [discriminate|]. clear C. cbn [after] in A.
    cbn [filter concat app]. destruct (Ascii.eqb_spec x c) as [->|N]; [rewrite Ascii.eqb_refl in A; discriminate|].
    cbn [negb]. f_equal. exact IH.
Qed.
Definition normalise (e : bytes) : res bytes :=
  '(b, _) <- stream_trim_with_size (cs e) ;;
  b <- stream_remove b (cs (s2b "-")) false ;;
  b <- stream_remove b (cs (s2b "_")) false ;;
  b <- common_to to_lower b ;;
  Ok b.
Lemma filter_filter {A} (f g : A -> bool) l : filter g (filter f l) = filter (fun x => f x && g x) l.
Proof. induction l as [|x l IH]; cbn [filter]; [reflexivity|]. destruct (f x); cbn [filter andb]; rewrite IH; reflexivity. Qed.
Lemma normalise_ok e : exists t r, normalise e = Ok (map to_lower (filter kept t) ++ NUL :: r) /\ trimmed (cstr e) t /\ nul_free (map to_lower (filter kept t)).
Proof.
  unfold normalise.
  destruct (trim_ok (cs e) (cstr e) (cs_holds e)) as (b1 & t & E1 & T & H1 & _). rewrite E1. cbn [bind].
  destruct (pieces_total (s2b "-") (length t) t (le_n _)) as (x & l & P).
  destruct (remove_all_ok b1 t (s2b "-") (x :: l) H1 ltac:(nf) (single_no_straddle _ _) P) as (b2 & E2 & H2 & _).
  rewrite E2. cbn [bind].
  destruct (pieces_total (s2b "_") (length (concat (x :: l))) (concat (x :: l)) (le_n _)) as (x' & l' & P').
  destruct (remove_all_ok b2 _ (s2b "_") (x' :: l') H2 ltac:(nf) (single_no_straddle _ _) P') as (b3 & E3 & [H3 [r ->]] & _).
  rewrite E3. cbn [bind]. rewrite common_to_ok by assumption.
  rewrite (bytes_pieces _ _ _ P'), (bytes_pieces _ _ _ P), filter_filter in *.
  exists t, r. split; [reflexivity|]. split; [exact T|]. apply map_lower_nul_free, H3.
Qed.
Lemma white_split l1 c1 r1 : forall l2 c2 r2, l1 ++ c1 :: r1 = l2 ++ c2 :: r2 -> forallb white l1 = true -> forallb white l2 = true ->
  white c1 = false -> white c2 = false -> l1 = l2 /\ c1 :: r1 = c2 :: r2.
Proof.
  induction l1 as [|x l1 IH]; intros [|y l2] c2 r2 E W1 W2 N1 N2; cbn [app forallb] in *.
  - auto.
  - injection E as -> _. apply andb_true_iff in W2. destruct W2. congruence.
  - injection E as -> _. apply andb_true_iff in W1. destruct W1. congruence.
  - injection E as -> E. apply andb_true_iff in W1, W2. destruct W1, W2. destruct (IH l2 c2 r2) as [-> E']; auto.
Qed.
Lemma trimmed_empty s l : s = l -> forallb white l = true -> forall t, trimmed s t -> t = [].
Proof.
  intros -> W t (l' & r' & E & _ & _ & H & _). destruct t as [|c t]; [reflexivity|]. subst l.
  rewrite forallb_app in W. cbn [app forallb] in W. apply andb_true_iff in W. destruct W as [_ W]. apply andb_true_iff in W. destruct W. congruence.
Qed.
Lemma forallb_rev {A} (f : A -> bool) l : forallb f (rev l) = forallb f l.
Proof. induction l as [|x l IH]; [reflexivity|]. cbn [rev forallb]. rewrite forallb_app, IH. cbn. rewrite andb_true_r. apply andb_comm. Qed.
Lemma trimmed_unique s t1 t2 : trimmed s t1 -> trimmed s t2 -> t1 = t2.
Proof.
  intros T1 T2. destruct t1 as [|c1 t1].
  { symmetry. destruct T1 as (l & r & E & W1 & W2 & _). apply (trimmed_empty s (l ++ r) E); [rewrite forallb_app, W1, W2; reflexivity|exact T2]. }
  destruct t2 as [|c2 t2].
  { destruct T2 as (l & r & E & W1 & W2 & _). apply (trimmed_empty s (l ++ r) E); [rewrite forallb_app, W1, W2; reflexivity|exact T1]. }
  destruct T1 as (l1 & r1 & E1 & W1 & V1 & A1 & B1), T2 as (l2 & r2 & E2 & W2 & V2 & A2 & B2).
  rewrite E1 in E2. cbn [app] in E2. destruct (white_split l1 c1 (t1 ++ r1) l2 c2 (t2 ++ r2) E2 W1 W2 A1 A2) as [_ E].
  change (c1 :: t1 ++ r1) with ((c1 :: t1) ++ r1) in E. change (c2 :: t2 ++ r2) with ((c2 :: t2) ++ r2) in E.
  apply (f_equal (@rev _)) in E. rewrite !rev_app_distr in E.
  destruct (rev (c1 :: t1)) as [|x1 u1] eqn:R1; [apply (f_equal (@length _)) in R1; rewrite rev_length in R1; discriminate|].
  destruct (rev (c2 :: t2)) as [|x2 u2] eqn:R2; [apply (f_equal (@length _)) in R2; rewrite rev_length in R2; discriminate|].
  destruct (white_split _ x1 u1 _ x2 u2 E) as [_ E']; [rewrite forallb_rev; assumption|rewrite forallb_rev; assumption|assumption|assumption|].
  rewrite <- (rev_involutive (c1 :: t1)), <- (rev_involutive (c2 :: t2)), R1, R2, E'. reflexivity.
Qed.
Lemma map_lower_eq a b : Forall2 same_letter a b -> map to_lower a = map to_lower b.
Proof. induction 1 as [|x y a b H F IH]; cbn [map]; [reflexivity|]. apply same_letter_ok in H. congruence. Qed.
(** a name written in small letters is what is compared *)
Lemma normalise_reads e name : nul_free e -> reads e name -> map to_lower name = name -> exists r, normalise e = Ok (name ++ NUL :: r) /\ nul_free name.
Proof.
  intros Ne (t & T & F) L. destruct (normalise_ok e) as (t' & r & E & T' & Nf). rewrite cstr_id in T' by assumption.
  rewrite (trimmed_unique _ _ _ T' T) in *. rewrite (map_lower_eq _ _ F), L in *. eauto.
Qed.
