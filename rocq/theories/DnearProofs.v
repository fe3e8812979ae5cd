(** The position in a DTD file stays close to what was read, so that an error can always be told (C61). *)
From Coq Require Import Permutation Lia.
From Verif Require Import Prelude StrModel StrProofs StreamModel StreamProofs TreeModel ParseModel ParseProofs DtdModel DtdDocModel LoadModel LoadProofs2 FdtdProofs.
From Verif Require Import RepModel RepSpec RepProofs RepProofs2 RepProofs3.
Open Scope Z_scope.
Local Arguments Z.of_nat : simpl never.
Local Arguments Z.to_nat : simpl never.
Local Arguments Z.add : simpl never.
Local Arguments Z.sub : simpl never.
Local Arguments Z.eqb : simpl never.
Local Arguments Z.ltb : simpl never.
Local Arguments Z.leb : simpl never.

(** at most ten bytes behind what was read *)
Definition closeby (st : stream) : Prop := wide st /\ s_prev st <= 10 /\ s_idx st + s_prev st <= s_size st + 10.
(** or further behind, when more of the file may be read *)
Definition semi (st : stream) : Prop := wide st /\ s_prev st <= 10 /\ (s_idx st + s_prev st <= s_size st + 10 \/ exists f, s_kind st = FD (Some f)).
Definition shortc (c : bytes) : Prop := good_chunk c /\ (length c <= 10)%nat.
Lemma near_semi st : closeby st -> semi st.
Proof. intros (W & P & H). split; [exact W|auto]. Qed.
Lemma near_fd st : closeby st -> fd st = true.
Proof. intros (([[f K] _ _ _ _ _ _] & _) & _). unfold fd. now rewrite K. Qed.

(** ** reading *)
Lemma pre_near st st' b : semi st -> prebuffer st = Ok (st', b) ->
  closeby st' /\ (b = true -> s_idx st' = 0 /\ 1 <= s_size st' /\ exists f, s_kind st' = FD (Some f)) /\
  (s_idx st <= s_size st -> s_idx st' <= s_size st' /\ s_size st - s_idx st <= s_size st' - s_idx st' /\ (b = true -> s_size st - s_idx st < s_size st' - s_idx st')).
Proof.
  intros ((Sf & W) & P & H) E. pose proof (prebuffer_safe st Sf W) as N. rewrite E in N. cbn [nub fst snd] in N. destruct N as (K & M & D).
  assert (X : (st' = st /\ b = false /\ s_kind st = FD None) \/ (s_idx st' = 0 /\ s_prev st' = s_prev st /\ (b = true -> exists f, s_kind st' = FD (Some f)))).
  { unfold prebuffer in E. destruct (sf_kind _ Sf) as ([file|] & Kf); rewrite Kf in E.
    - right. apply bind_inv in E as ([[b1 bs] sz] & _ & E). apply bind_inv in E as (b2 & _ & E).
      destruct (firstn _ _); injection E as <- <-; cbn; repeat split; eauto; discriminate.
    - left. injection E as <- <-. auto. }
  split; [|split; [|exact D]].
  - destruct X as [(-> & _ & Kn)|(X1 & X2 & _)].
    + split; [split; [exact Sf|lia]|]. split; [exact P|]. destruct H as [H|(f & H)]; [exact H|congruence].
    + destruct K as (S' & L'). pose proof (sf_size _ S'). split; [split; [exact S'|lia]|lia].
  - intros ->. destruct (M eq_refl). destruct X as [(_ & [=] & _)|(_ & _ & X)]. auto.
Qed.
Lemma inspect_semi acc st c st' v : semi st -> shortc c -> common_inspect acc st c = Ok (st', v) -> closeby st'.
Proof.
  intros Sm (Gc & Lc) E. pose proof (common_safe acc st c (proj1 Sm) Gc) as N. rewrite E in N. cbn [nub fst] in N.
  apply (keeps_wide _ _ (proj1 Sm)) in N. unfold common_inspect in E. cbv zeta in E.
  assert (Look : forall st0, semi st0 -> s_idx st0 + Z.of_nat (length c) <= s_size st0 \/ (closeby st0 /\ s_idx st0 = 0) ->
    (p <- ptr_at (s_buf st0) (s_idx st0) ;; r <- axl_memcmp (cs c) p (Z.of_nat (length c)) ;;
     if (r : bool) then Ok (if acc then stream_accept (set_pos st0 (s_idx st0) (Z.of_nat (length c))) else set_pos st0 (s_idx st0) (Z.of_nat (length c)), 1)
     else Ok (st0, 0)) = Ok (st', v) -> closeby st').
  { intros st0 (W0 & P0 & H0) L0 X. apply bind_inv in X as (p & _ & X). apply bind_inv in X as (r & _ & X). split; [exact N|].
    pose proof (sf_size _ (proj1 W0)). destruct r; injection X as <- <-.
    - destruct acc; cbn; destruct L0 as [L0|(_ & L0)]; lia.
    - destruct L0 as [L0|(N0 & _)]; [lia|apply N0]. }
  destruct (Z.ltb_spec (s_size st) (Z.of_nat (length c) + s_idx st)) as [C|C]; cbn [bind] in E.
  - apply bind_inv in E as ([s1 o1] & E1 & E). apply bind_inv in E1 as ([s2 more] & P & E1). injection E1 as <- <-.
    destruct (pre_near _ _ _ Sm P) as (Nr & M & _). destruct more; cbn [negb] in E; [|injection E as <- <-; exact Nr].
    apply (Look s2); trivial; [now apply near_semi|right]. split; trivial. now destruct (M eq_refl).
  - apply (Look st); trivial. left. lia.
Qed.
Lemma inspect_near acc st c st' v : closeby st -> shortc c -> common_inspect acc st c = Ok (st', v) -> closeby st'.
Proof. intros N. apply inspect_semi. now apply near_semi. Qed.
Lemma which_semi {A} : forall (l : list (bytes * A)) st d st' x, l <> [] -> semi st -> Forall shortc (map fst l) -> which st l d = Ok (st', x) -> closeby st'.
Proof.
  induction l as [|[t y] l IH]; intros st d st' x Ne Sm G E; [contradiction|]. cbn [which map fst] in *.
  apply bind_inv in E as ([s v] & E1 & E). apply inspect_semi in E1; trivial; [|exact (Forall_inv G)].
  destruct (0 <? v); [injection E as <- _; exact E1|]. destruct l as [|z l]; [injection E as <- _; exact E1|].
  eapply IH; [discriminate|exact (near_semi _ E1)|exact (Forall_inv_tail G)|exact E].
Qed.
Lemma which_near {A} (l : list (bytes * A)) st d st' x : closeby st -> Forall shortc (map fst l) -> which st l d = Ok (st', x) -> closeby st'.
Proof.
  intros N G E. destruct l as [|y l]; [injection E as <- _; exact N|]. eapply which_semi; [|apply near_semi; exact N|exact G|exact E]. discriminate.
Qed.
Lemma remains_near st st' b : closeby st -> stream_remains st = Ok (st', b) -> closeby st'.
Proof.
  intros N E. unfold stream_remains in E. destruct (_ <=? _); [|injection E as <- _; exact N].
  apply pre_near in E; [apply E|now apply near_semi].
Qed.
Lemma accept_near st : closeby st -> closeby (stream_accept st).
Proof. intros (W & P & H). split; [apply accept_w, W|]. cbn. lia. Qed.
Lemma spaces_loop_near : forall n st r st', closeby st -> r <= s_size st - s_idx st -> spaces_loop n st r = Ok st' -> closeby st'.
Proof.
  induction n as [|n IH]; intros st r st' Nr Hr E; [discriminate|]. cbn [spaces_loop] in E.
  apply bind_inv in E as ([[s1 go] r1] & E1 & E).
  assert (B : closeby s1 /\ (go = true -> s_idx s1 < s_size s1 /\ r1 + 1 <= s_size s1 - s_idx s1)).
  { destruct (Z.ltb_spec (r - 1) 0) as [Hl|Hl].
    - apply bind_inv in E1 as ([s2 more] & P & E1). injection E1 as <- <- <-. destruct (pre_near _ _ _ (near_semi _ Nr) P) as (N2 & M & _).
      split; trivial. intros ->. destruct (M eq_refl) as (M1 & M2 & _). lia.
    - injection E1 as <- <- <-. split; trivial. intros _. lia. }
  destruct B as (N1 & G). destruct go; [|injection E as <-; exact N1]. destruct (G eq_refl) as (G1 & G2).
  apply bind_inv in E as (c & _ & E). destruct (is_ws c); [|injection E as <-; exact N1].
  eapply IH; [| |exact E].
  - pose proof (keeps_wide _ _ (proj1 N1) (advance_safe s1 (proj1 (proj1 N1)) G1)) as W. split; [exact W|]. cbn. lia.
  - cbn. lia.
Qed.
Lemma spaces_near st st' : closeby st -> consume_spaces st = Ok st' -> closeby st'.
Proof. intros N. apply spaces_loop_near; [exact N|lia]. Qed.
Lemma result_near st acc ref i n it st' o : wide st -> 0 <= i -> 1 <= n -> s_idx st + i + n <= s_size st -> until_result st acc ref i n it = Ok (st', o) -> closeby st' /\ s_kind st' = s_kind st /\ s_size st' = s_size st.
Proof.
  intros W Hi Hn H E. pose proof (result_safe st acc ref i n it (proj1 W) Hi Hn H) as N. rewrite E in N. cbn [nub fst snd] in N.
  destruct N as (K & _). apply (keeps_wide _ _ W) in K. unfold until_result in E. apply bind_inv in E as (x & _ & E). apply bind_inv in E as (b & _ & E).
  injection E as <- _. split; [|split; reflexivity]. split; [exact K|]. cbn. destruct acc; lia.
Qed.
(** whatever was found, the position is near; with one byte to look for, either nothing more was read or there may be more *)
Lemma until_near chunks acc ref : Forall good_chunk chunks -> forall n st i r (ag : bool) st' o, closeby st -> 0 <= i ->
  (if ag then s_idx st + i < s_size st /\ s_idx st + i + 1 + r <= s_size st else (i = 0 \/ 0 <= r) /\ s_idx st + i + r <= s_size st) ->
  (ag = true -> 0 <= r) ->
  until_loop n st chunks acc ref i r ag = Ok (st', o) -> closeby st' /\
  ((forall b z p it len, match_at chunks b z p = Ok (Some (it, len)) -> (len <? max_length chunks) = false) -> ref = false -> o <> None ->
   (s_kind st' = s_kind st /\ s_size st' = s_size st /\ s_idx st <= s_size st) \/ exists f, s_kind st' = FD (Some f)).
Proof.
  intros G. induction n as [|n IH]; intros st i r ag st' o Nr Hi Hag Hr E; [discriminate|]. cbn [until_loop] in E.
  apply bind_inv in E as ([[[s1 go] i1] r1] & E1 & E).
  assert (B : closeby s1 /\ (go = true -> (s1 = st \/ exists f, s_kind s1 = FD (Some f)) /\ 0 <= i1 /\ 0 <= r1 /\ s_idx s1 + i1 < s_size s1 /\ s_idx s1 + i1 + 1 + r1 <= s_size s1)).
  { destruct ag.
    - injection E1 as <- <- <- <-. split; trivial. intros _. specialize (Hr eq_refl). split; [now left|lia].
    - cbv zeta in E1. destruct (Z.ltb_spec (r - 1) 0) as [Hl|Hl].
      + destruct (sf_kind _ (proj1 (proj1 Nr))) as (f & Kf). rewrite Kf in E1. apply bind_inv in E1 as ([s2 more] & P & E1). injection E1 as <- <- <- <-.
        destruct (pre_near _ _ _ (near_semi _ Nr) P) as (N2 & M & D). split; trivial. intros ->. destruct (M eq_refl) as (M1 & M2 & M3). split; [now right|].
        pose proof (sf_idx _ (proj1 (proj1 Nr))). rewrite M1 in *.
        destruct (Z.ltb_spec 0 i) as [H0|H0]; [|lia]. destruct (D ltac:(lia)) as (_ & _ & D3). specialize (D3 eq_refl). lia.
      + injection E1 as <- <- <- <-. split; trivial. intros _. split; [now left|lia]. }
  destruct B as (N1 & Go). destruct go; [|injection E as <- <-; split; [exact N1|congruence]]. destruct (Go eq_refl) as (Eq & G1 & G2 & G3 & G4). clear Go E1.
  assert (Hle : s_idx s1 <= s_size s1) by lia.
  apply bind_inv in E as (o1 & Em & E). pose proof (at_safe chunks (s_buf s1) (s_size s1) (s_idx s1 + i1) G) as Ma. rewrite Em in Ma.
  pose proof (proj1 (proj1 N1)) as S1. specialize (Ma ltac:(pose proof (sf_idx _ S1); lia) ltac:(pose proof (sf_size _ S1); pose proof (sf_len _ S1); lia)). cbn [nub] in Ma.
  destruct o1 as [[it len]|].
  - destruct (Ma _ _ eq_refl) as (Hm1 & Hm2). destruct ((len <? max_length chunks) && (s_idx s1 + i1 + len =? s_size s1)) eqn:Cx.
    + apply bind_inv in E as ([s2 more] & P & E). destruct (pre_near _ _ _ (near_semi _ N1) P) as (N2 & M & D). destruct (D Hle) as (D1 & D2 & D3).
      apply andb_true_iff in Cx. destruct Cx as (Cx & _).
      split; [|intros Sg; specialize (Sg _ _ _ _ _ Em); congruence].
      destruct more.
      * specialize (D3 eq_refl). eapply IH in E; [apply E| | | |]; trivial; lia.
      * apply result_near in E; [apply E|apply N2|lia|lia|lia].
    + apply result_near in E; [|apply N1|lia|lia|lia]. destruct E as (N3 & K3 & Z3). split; trivial. intros _ _ _. rewrite K3, Z3. destruct Eq as [->|Eq]; [left; auto|right; exact Eq].
  - destruct (IH s1 (i1 + 1) r1 false st' o N1 ltac:(lia) ltac:(split; lia) ltac:(discriminate) E) as (N3 & R3). split; trivial. intros Sg Rf On. specialize (R3 Sg Rf On).
    destruct Eq as [->|(f & Kf)]; [exact R3|]. right. destruct R3 as [(R3 & _)|R3]; [rewrite R3; eauto|exact R3].
Qed.
Lemma get_near st a l st' o : closeby st -> Forall good_chunk l -> get_until st a l = Ok (st', o) -> closeby st'.
Proof. intros N G E. unfold get_until in E. apply until_near in E; trivial; [apply E|lia|lia|discriminate]. Qed.
Lemma get_ref_near st a l st' o : closeby st -> Forall good_chunk l -> get_until_ref st a l = Ok (st', o) -> closeby st'.
Proof. intros N G E. unfold get_until_ref in E. apply until_near in E; trivial; [apply E|lia|lia|discriminate]. Qed.
Lemma push_near st v st' : closeby st -> s_prev st = 0 -> s_idx st <= s_size st -> v <> [] -> stream_push st v = Ok st' -> closeby st'.
Proof.
  intros (W & P & H) Hp Hi Hv E. pose proof (push_w st v W Hp Hi Hv) as N. rewrite E in N. cbn [nub] in N. split; [exact N|].
  unfold stream_push in E. cbv zeta in E. apply bind_inv in E as (x & _ & E). apply bind_inv in E as ([b bs] & _ & E). injection E as <-. cbn. rewrite Hp. lia.
Qed.
Lemma semicolon_short b z p it len : match_at [s2b ";"] b z p = Ok (Some (it, len)) -> (len <? max_length [s2b ";"]) = false.
Proof.
  unfold match_at. cbn [existsb]. change (ws_chunk (s2b ";")) with false. cbn [orb bind match_chunks].
  change (chunk_len (s2b ";")) with 1. intros E. apply bind_inv in E as (m & _ & E). destruct m; [injection E as _ <-; reflexivity|discriminate].
Qed.
(** going back to a reference that has no value *)
Lemma back_semi st s1 v s2 name : closeby st -> stream_inspect st (s2b "%") = Ok (s1, v) -> 0 < v -> get_until s1 true [s2b ";"] = Ok (s2, Some name) ->
  semi (stream_move s2 (s_idx st)).
Proof.
  intros N E1 V E2. assert (Sc : shortc (s2b "%")) by (split; [split; [nf|discriminate]|cbn; lia]).
  pose proof (inspect_near true _ _ _ _ N Sc E1) as N1.
  unfold get_until in E2. pose proof E2 as E3. apply until_near in E2; [|gc|exact N1|lia|lia|discriminate].
  destruct E2 as (N2 & R). specialize (R semicolon_short eq_refl ltac:(discriminate)).
  assert (W : wide (stream_move s2 (s_idx st))).
  { destruct N as (([K Ln Nu Sz Ix Pv Ps] & H1) & _). pose proof (inspect_safe st (s2b "%") (conj (Safe _ K Ln Nu Sz Ix Pv Ps) H1) (proj1 Sc)) as K1. rewrite E1 in K1. destruct K1 as (_ & L1). cbn [fst] in L1.
    pose proof (get_safe s1 true [s2b ";"] (proj1 N1) ltac:(gc)) as K2. unfold get_until in K2. rewrite E3 in K2. destruct K2 as ((_ & L2) & _). cbn [fst] in L2.
    destruct N2 as (([K' Ln' Nu' Sz' Ix' Pv' Ps'] & H2) & _). split; [constructor; cbn; auto; lia|cbn; lia]. }
  split; [exact W|]. split; [cbn; lia|]. cbn [stream_move stream_accept set_pos s_idx s_prev s_size s_kind].
  destruct R as [(R1 & R2 & R3)|R]; [|now right].
  unfold stream_inspect, common_inspect in E1. cbv zeta in E1. change (Z.of_nat (length (s2b "%"))) with 1 in E1.
  destruct (Z.ltb_spec (s_size st) (1 + s_idx st)) as [C|C]; cbn [bind] in E1.
  - right. rewrite R1. apply bind_inv in E1 as ([s3 o3] & E4 & E1). apply bind_inv in E4 as ([s4 more] & P & E4). injection E4 as <- <-.
    destruct (pre_near _ _ _ (near_semi _ N) P) as (_ & M & _). destruct more; cbn [negb] in E1; [|injection E1 as _ <-; lia].
    destruct (M eq_refl) as (_ & _ & f & Kf). exists f. apply bind_inv in E1 as (p & _ & E1). apply bind_inv in E1 as (r & _ & E1).
    destruct r; injection E1 as <- <-; exact Kf.
  - left. rewrite R2. apply bind_inv in E1 as (p & _ & E1). apply bind_inv in E1 as (r & _ & E1). destruct r; injection E1 as <- <-; cbn; lia.
Qed.

(** ** telling *)
Lemma tell_there w b p m e st code text : idle w b p m e -> closeby st -> error_new m st code text <> UB.
Proof.
  intros H K. assert (Ok0 : ok [] st) by (intros X; rewrite (near_fd _ K) in X; discriminate).
  destruct K as ((Sf & _) & P & L). pose proof (sf_idx _ Sf) as Q1. pose proof (sf_size _ Sf) as Q2. pose proof (sf_len _ Sf) as Q3. pose proof (sf_prev _ Sf) as Q4.
  unfold error_new. destruct (wanted m) eqn:W; [|discriminate]. apply idle_told in H.
  destruct (take m) as [m1 b1] eqn:T1. cbn [bind].
  assert (H1 : told w p m1 (b1 :: e)). { apply told_take in H. unfold take in *. injection T1 as <- <-. exact H. }
  destruct (get_following_ok [] _ _ _ _ st 10 H1 Ok0) as [(G & _)|(m2 & t & G & H2 & _)]; [lia| |]; rewrite G; cbn [bind].
  - exfalso. revert G. unfold get_following. rewrite (told_touch _ _ _ _ H1). cbn [bind].
    destruct (Z.leb_spec (s_size st) (s_idx st)) as [C|C]; [discriminate|]. cbv zeta.
    destruct (drop_follow _ _ _ _ H1) as (m3 & R & _). rewrite R. cbn [bind]. unfold take. cbv beta iota.
    match goal with |- context [mem_sub _ _ ?k] => destruct (sub_safe (s_buf st) (s_idx st) k) as (t & M & _) end;
      try (destruct (Z.ltb_spec (s_size st) (10 + s_idx st)); lia). rewrite M. discriminate.
  - destruct (get_near_ok [] _ _ _ _ st 10 H2 Ok0) as [(G' & _)|(m3 & t' & G' & _)]; [lia| |]; rewrite G'; cbn [bind]; [|discriminate].
    exfalso. revert G'. unfold get_near_to. rewrite (told_touch _ _ _ _ H2). cbn [bind]. cbv zeta.
    destruct (drop_near _ _ _ _ H2) as (m3 & R & _). rewrite R. cbn [bind]. unfold take. cbv beta iota.
    match goal with |- context [mem_sub _ ?i ?k] => destruct (sub_safe (s_buf st) i k) as (t' & M & _) end;
      try (destruct (Z.leb_spec (s_idx st - 10) 0); destruct (Z.leb_spec (s_size st - 1) (s_idx st + 10)); lia). rewrite M. discriminate.
Qed.
Lemma file_near content st : stream_file content = Ok st -> closeby st.
Proof.
  intros E. destruct (file_safe content) as (s & E' & W). rewrite E in E'. injection E' as <-. split; [exact W|].
  unfold stream_file in E. apply bind_inv in E as ([s b] & P & E). injection E as <-. unfold prebuffer in P. cbn [s_kind s_prev s_idx s_size] in P.
  apply bind_inv in P as ([[b1 bs] sz] & _ & P). apply bind_inv in P as (b2 & _ & P). pose proof (sf_size _ (proj1 W)).
  destruct (firstn _ _); injection P as <- <-; cbn in *; lia.
Qed.
