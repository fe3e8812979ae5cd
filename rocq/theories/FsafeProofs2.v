(** The parser over a file stream with any content: every loop ends and every access is
    inside its block, but for the read of a short standalone= value. *)
From Verif Require Import Prelude StrModel StrSpec StrProofs StreamModel StreamProofs AttrModel AttrProofs TreeModel
  ParseModel ParseProofs ParseProofs2 FsafeProofs.
Open Scope Z_scope.
Local Arguments Z.of_nat : simpl never.
Local Arguments Z.to_nat : simpl never.
Local Arguments Z.add : simpl never.
Local Arguments Z.sub : simpl never.
Local Arguments Z.eqb : simpl never.
Local Arguments Z.ltb : simpl never.
Local Arguments Z.leb : simpl never.

Definition okay {A} (U : Prop) (r : res (option A)) (P : A -> Prop) : Prop :=
  (r = UB /\ U) \/ exists o, r = Ok o /\ forall x, o = Some x -> P x.
Lemma okay_none {A} U (P : A -> Prop) : okay U (Ok None) P.
Proof. right. exists None. split; [reflexivity|discriminate]. Qed.
Lemma okay_some {A} U (P : A -> Prop) x : P x -> okay U (Ok (Some x)) P.
Proof. intros H. right. exists (Some x). split; [reflexivity|]. intros y E. injection E as <-. exact H. Qed.
Lemma okay_imp {A} (U V : Prop) r (P Q : A -> Prop) : okay U r P -> (U -> V) -> (forall x, P x -> Q x) -> okay V r Q.
Proof. intros [[E H]|(o & E & H)] UV PQ; [left; auto|right; exists o; auto]. Qed.
Lemma okay_bind {A B} U (r : res (option A)) (k : A -> res (option B)) P Q :
  okay U r P -> (forall x, P x -> okay U (k x) Q) -> okay U (bindo r k) Q.
Proof.
  intros [[-> H]|(o & -> & H)] K; [left; auto|]. destruct o as [x|]; cbn [bindo bind]; [apply K, H; reflexivity|apply okay_none].
Qed.

Ltac sld := split; [nf|split; [discriminate|cbn; lia]].
Definition next (s : bytes) (m : nat) (h : bool) (x : stream * pdoc) : Prop :=
  exists s' m', live (fst x) s' m' /\ (m' <= m)%nat /\ suffix s' s /\ p_header (snd x) = h.

Lemma h_item d i : p_header (add_item d i) = p_header d.
Proof. unfold add_item. destruct (p_stack d); reflexivity. Qed.
Lemma h_pi d p : p_header (add_pi d p) = p_header d.
Proof. unfold add_pi. destruct (p_stack d); try reflexivity; apply h_item. Qed.
Lemma h_node d n : p_header (add_node d n) = p_header d.
Proof. unfold add_node. destruct (p_stack d) as [|x r]; try reflexivity; apply h_item. Qed.

Lemma nrm_norm st s b w f : nrm st s b -> norm st w f -> b = open f.
Proof. intros (w' & f' & (p1 & q1 & K1 & _) & _ & ->) (p2 & q2 & K2 & _). rewrite K1 in K2. injection K2 as <-. reflexivity. Qed.
Lemma nrm_nrm st s b s' b' : nrm st s b -> nrm st s' b' -> b = b'.
Proof. intros N (w & f & N' & _ & ->). eapply nrm_norm; eassumption. Qed.
Lemma live_nrm st s m s' b : live st s m -> nrm st s' b -> m = (length s + b)%nat.
Proof.
  intros [(b' & N & ->)|[O _]] N'; [rewrite (nrm_nrm _ _ _ _ _ N N'); reflexivity|].
  exfalso. eapply over_nrm; [exact O|eauto].
Qed.
Lemma spaces_end st : norm st [] (Some []) -> exists st', consume_spaces st = Ok st' /\ nrm st' [] 0.
Proof.
  intros N. unfold consume_spaces. assert (Et : exists n, turns st = S n) by (unfold turns; eexists; reflexivity).
  destruct Et as [n ->]. cbn [spaces_loop]. pose proof N as (pre & post & K & B & I & Z & _). simpl length in Z.
  replace (s_size st - s_idx st - 1 <? 0) with true by (symmetry; apply Z.ltb_lt; lia).
  destruct (pre_norm _ _ _ N) as (st' & more & P & I' & G). rewrite P. cbn [bind].
  destruct G as [(_ & -> & N')|(d & f' & E & D & _)]; [|destruct d; [contradiction|discriminate]].
  exists st'. split; [reflexivity|]. exists [], None. auto.
Qed.
Lemma pi_okay U st s m d : live st s m ->
  okay U (consume_pi st d) (fun x => exists s' m', live (fst x) s' m' /\ (m' <= m)%nat /\ suffix s' s /\ p_header (snd x) = p_header d /\
    ((exists b, nrm st s b) -> after (s2b "<?") s <> None \/ (norm st s (Some []) /\ (length s < 2)%nat) -> (m' < m)%nat)).
Proof.
  intros L. unfold consume_pi.
  destruct (peek_live st s m (s2b "<?") L ltac:(sld)) as (st1 & v & b1 & E & N1 & L1 & Y & Nn). rewrite E. cbn [bind].
  destruct (0 <? v) eqn:V.
  - destruct (Y eq_refl) as (s2 & m2 & L2 & Lm & S2 & _). cbv zeta. clear Y Nn.
    destruct (until_live false [s2b " ?>"; s2b "?>"; s2b " "] _ s2 m2 ltac:(gc) L2) as (st3 & o & E3 & s3 & m3 & L3 & Lm3 & S3 & _).
    unfold get_until. rewrite E3. cbn [bind]. destruct o as [[t it]|]; [|apply okay_none].
    pose proof (suffix_trans _ _ _ S3 S2) as Ss. rewrite axl_cmp_cs. cbn [bind].
    destruct (bytes_eqb _ _); [apply okay_none|].
    destruct (_ || _).
    + apply okay_some. exists s3, m3. cbn [fst snd]. rewrite h_pi. repeat split; auto; lia.
    + destruct (it =? 2); [|apply okay_none].
      destruct (until_live false [s2b " ?>"; s2b "?>"] _ s3 m3 ltac:(gc) L3) as (st4 & o & E4 & s4 & m4 & L4 & Lm4 & S4 & _).
      rewrite E4. cbn [bind]. destruct o as [[t4 it4]|]; [|apply okay_none].
      apply okay_some. exists s4, m4. cbn [fst snd]. rewrite h_pi. pose proof (suffix_trans _ _ _ S4 Ss). repeat split; auto; lia.
  - apply okay_some. exists s, (length s + b1)%nat. cbn [fst snd]. split; [left; eauto|]. split; [exact L1|].
    split; [apply suffix_refl|]. split; [reflexivity|]. intros Hn [A|[N Ls]].
    + exfalso. apply A, (proj1 (Nn eq_refl Hn)).
    + destruct (inspect_end false _ _ (s2b "<?") N Ls) as (st' & E' & N'). unfold stream_peek in E. rewrite E' in E.
      injection E as <- _. destruct L as [(b & Nb & ->)|[O _]]; [|contradiction (over_nrm _ _ _ O Hn)].
      pose proof (nrm_nrm _ _ _ _ _ N1 N'). assert (b = 1%nat); [|lia].
      exact (nrm_norm _ _ _ _ _ Nb N).
Qed.

(** what makes a turn of the comments move on *)
Definition moves (st : stream) (s : bytes) (d : pdoc) : Prop :=
  (exists b, nrm st s b) /\
  ((after (s2b "<?") s <> None /\ p_header d = true) \/ after (s2b "<!--") s <> None \/ (norm st s (Some []) /\ (length s < 4)%nat)).

Lemma skip_at c s : after c s <> None -> match c with x :: _ => is_ws x = false | [] => False end -> skip s = s.
Proof.
  destruct c as [|x c]; intros A W; [contradiction|]. destruct s as [|y s]; [reflexivity|]. cbn [after] in A. cbn [skip].
  destruct (Ascii.eqb_spec x y) as [<- |E]; [rewrite W; reflexivity|contradiction].
Qed.
(** at the end of an open file the turn closes it *)
Lemma stuck st st1 st2 s m m1 m2 v : norm st s (Some []) -> (length s < 4)%nat -> consume_spaces st = Ok st1 -> live st1 s m1 ->
  stream_inspect st1 (s2b "<!--") = Ok (st2, v) -> live st2 s m2 -> m = (length s + 1)%nat -> s = skip s -> (m2 <= m1)%nat -> (m2 < m)%nat.
Proof.
  intros N Ls E1 L1 E2 L2 -> Sk Lm. destruct s as [|c s].
  - destruct (spaces_end _ N) as (st' & E & N'). rewrite E in E1. injection E1 as <-. pose proof (live_nrm _ _ _ _ _ L1 N'). simpl in *. lia.
  - assert (W : is_ws c = false).
    { cbn [skip] in Sk. destruct (is_ws c); [|reflexivity]. pose proof (skip_len s). apply (f_equal (@length _)) in Sk. simpl in Sk. lia. }
    rewrite (spaces_stop _ _ _ _ N W) in E1. injection E1 as <-.
    destruct (inspect_end true _ _ (s2b "<!--") N Ls) as (st' & E & N'). unfold stream_inspect in E2. rewrite E in E2. injection E2 as <- _.
    pose proof (live_nrm _ _ _ _ _ L2 N'). lia.
Qed.
Lemma comments_okay U : forall fuel st s m d, live st s m -> (m < fuel)%nat ->
  okay U (comments_loop fuel st d) (fun x => exists s' m', live (fst x) s' m' /\ (m' <= m)%nat /\ suffix s' s /\ p_header (snd x) = p_header d /\
    (moves st s d -> (m' < m)%nat)).
Proof.
  induction fuel as [|fuel IH]; intros st s m d L Lf; [lia|]. cbn [comments_loop].
  destruct (spaces_live _ _ _ L) as (st1 & s1 & m1 & E1 & L1 & Lm1 & S1 & N1 & Hs1). rewrite E1. cbn [bind].
  destruct (inspect_live st1 s1 m1 (s2b "<!--") L1 ltac:(sld)) as (st2 & v & s2 & m2 & E2 & L2 & Lm2 & S2 & Y2 & Nn2). rewrite E2. cbn [bind].
  pose proof (suffix_len _ _ S1) as Ls1.
  (* the end of the turn *)
  assert (Rest : forall st3 s3 m3 d3 (found : bool), live st3 s3 m3 -> (m3 <= m)%nat -> suffix s3 s -> p_header d3 = p_header d ->
     (found = true -> (m3 < m)%nat) ->
     ((moves st s d -> (m3 < m)%nat) \/ (d3 = d /\ s3 = s /\ (exists b, nrm st3 s b) /\ after (s2b "<!--") s = None /\ skip s = s /\
        (moves st s d -> ~ (m3 < m)%nat -> after (s2b "<?") s <> None /\ p_header d = true))) ->
     okay U (st <- consume_spaces st3 ;;
      '(st, v) <- (if p_header d3 then stream_peek st (s2b "<?") else Ok (st, 0)) ;;
      '(st, d, found) <-!
        (if 0 <? v then
         '(st, d) <-! consume_pi st d3 ;; Ok (Some (st, d, true))
         else Ok (Some (st, d3, found))) ;;
      if (found : bool) then comments_loop fuel st d
      else (st <- consume_spaces st ;; Ok (Some (st, d))))
     (fun x => exists s' m', live (fst x) s' m' /\ (m' <= m)%nat /\ suffix s' s /\ p_header (snd x) = p_header d /\
      (moves st s d -> (m' < m)%nat))).
  { intros st3 s3 m3 d3 found L3 Lm3 S3 Hd3 Hf Mv.
    destruct (spaces_live _ _ _ L3) as (st4 & s4 & m4 & E4 & L4 & Lm4 & S4 & N4 & Hs4). rewrite E4. cbn [bind].
    pose proof (suffix_len _ _ S4) as Ls4. pose proof (suffix_trans _ _ _ S4 S3) as S4s.
    assert (Go : forall st5 s5 m5 d5 (fd : bool), live st5 s5 m5 -> (m5 <= m)%nat -> suffix s5 s -> p_header d5 = p_header d ->
      (fd = true -> (m5 < m)%nat) -> (moves st s d -> (m5 < m)%nat) ->
      okay U (if fd then comments_loop fuel st5 d5 else (st <- consume_spaces st5 ;; Ok (Some (st, d5))))
        (fun x => exists s' m', live (fst x) s' m' /\ (m' <= m)%nat /\ suffix s' s /\ p_header (snd x) = p_header d /\ (moves st s d -> (m' < m)%nat))).
    { intros st5 s5 m5 d5 fd L5 Lm5 S5 Hd5 Hfd Mv5. destruct fd.
      - specialize (Hfd eq_refl). apply (okay_imp U U _ _ _ (IH _ _ _ d5 L5 ltac:(lia))); [auto|].
        intros x (s' & m' & H1 & H2 & H3 & H4 & _). exists s', m'. repeat split; auto; try lia; [eapply suffix_trans; eassumption|congruence].
      - destruct (spaces_live _ _ _ L5) as (st6 & s6 & m6 & E6 & L6 & Lm6 & S6 & _). rewrite E6. cbn [bind].
        pose proof (suffix_len _ _ S6). apply okay_some. exists s6, m6. cbn [fst snd]. repeat split; auto; try lia.
        + eapply suffix_trans; eassumption.
        + intros M. specialize (Mv5 M). lia. }
    destruct (p_header d3) eqn:Hh.
    - destruct (peek_live st4 s4 m4 (s2b "<?") L4 ltac:(sld)) as (st5 & v5 & b5 & E5 & N5 & L5 & Y5 & Nn5). rewrite E5. cbn [bind].
      destruct (0 <? v5) eqn:V5.
      + destruct (Y5 eq_refl) as (s6 & m6 & _ & _ & _ & C).
        apply (okay_bind U _ _ (fun y => snd y = true /\ exists s' m', live (fst (fst y)) s' m' /\ (m' <= length s4 + b5)%nat /\ suffix s' s4 /\ p_header (snd (fst y)) = p_header d3 /\
          ((exists b, nrm st5 s4 b) -> after (s2b "<?") s4 <> None \/ (norm st5 s4 (Some []) /\ (length s4 < 2)%nat) -> (m' < length s4 + b5)%nat))).
        * eapply okay_bind; [apply (pi_okay U st5 s4 (length s4 + b5) d3 (nrm_live _ _ _ N5))|].
          intros [st7 d7] H. apply okay_some. split; [reflexivity|exact H].
        * intros [[st7 d7] fd] [Efd (s7 & m7 & L7 & Lm7 & S7 & Hd7 & P7)]. cbn [fst snd] in *. 
          assert (Lt : (m7 < length s4 + b5)%nat).
          { apply P7; [eauto|]. destruct C as [-> |(_ & C1 & C2)]; [left; cbn; discriminate|right; auto]. }
          rewrite Efd. apply (Go st7 s7 m7 d7 true L7); try lia; try congruence; eapply suffix_trans; eassumption.
      + cbn [bindo]. apply (Go st5 s4 (length s4 + b5)%nat d3 found (nrm_live _ _ _ N5)); [lia|exact S4s|congruence| |].
        * intros Hfd. specialize (Hf Hfd). lia.
        * intros M. destruct Mv as [Mv|(-> & -> & N3 & A & Sk & Mv)]; [specialize (Mv M); lia|].
          destruct (Nat.lt_ge_cases m3 m) as [H|H]; [lia|]. exfalso. destruct (Mv M ltac:(lia)) as [A' _].
          rewrite (Hs4 N3), Sk in *. apply A', (proj1 (Nn5 eq_refl N4)).
    - cbn [bind bindo]. change (0 <? 0) with false. cbn [bindo bind]. apply (Go st4 s4 m4 d3 found L4); [lia|exact S4s|congruence| |].
      + intros Hfd. specialize (Hf Hfd). lia.
      + intros M. destruct Mv as [Mv|(-> & -> & N3 & A & Sk & Mv)]; [specialize (Mv M); lia|].
        destruct (Nat.lt_ge_cases m3 m) as [H|H]; [lia|]. exfalso. destruct (Mv M ltac:(lia)) as [_ A']. congruence. }
  destruct (0 <? v) eqn:V.
  - destruct (Y2 eq_refl) as (Lt2 & _).
    destruct (until_live true [s2b "-->"] _ s2 m2 ltac:(gc) L2) as (st3 & o & E3 & s3 & m3 & L3 & Lm3 & S3 & _).
    unfold get_until_ref. rewrite E3. cbn [bind]. destruct o as [[t it]|]; [|apply okay_none]. cbn [bindo].
    apply (Rest st3 s3 m3 (add_item d (IComment t)) true L3); try lia.
    + eapply suffix_trans; [exact S3|]. eapply suffix_trans; eassumption.
    + apply h_item.
  - cbn [bindo]. destruct (Nn2 eq_refl) as (_ & -> & N2 & A2). specialize (A2 N1).
    apply (Rest st2 s1 m2 d false L2); [lia|exact S1|reflexivity|discriminate|].
    destruct (Nat.eq_dec (length s1) (length s)) as [El|El]; [|left; intros _; lia].
    assert (s1 = s) by (destruct S1 as [a Ea]; destruct a as [|x a]; [cbn in Ea; congruence|apply (f_equal (@length _)) in Ea; rewrite app_length in Ea; simpl in Ea; lia]).
    subst s1. 
    destruct L as [(b & N & Em)|[O Em]].
    + specialize (Hs1 (ex_intro _ b N)). right. repeat split; auto.
      * destruct H as [Hn [H|[H|[Hl Hl']]]]; [apply H|contradiction|]. exfalso. apply H0. clear Rest Y2 Nn2 IH.
        pose proof (nrm_norm _ _ _ _ _ N Hl) as ->. cbn [open] in Em. exact (stuck _ _ _ _ _ _ _ _ Hl Hl' E1 L1 E2 L2 Em Hs1 Lm2).
      * destruct H as [Hn [H|[H|[Hl Hl']]]]; [apply H|contradiction|]. exfalso. apply H0. clear Rest Y2 Nn2 IH.
        pose proof (nrm_norm _ _ _ _ _ N Hl) as ->. cbn [open] in Em. exact (stuck _ _ _ _ _ _ _ _ Hl Hl' E1 L1 E2 L2 Em Hs1 Lm2).
    + left. intros [Hn _]. contradiction (over_nrm _ _ _ O Hn).
Qed.
Lemma consume_okay U st s m d : live st s m ->
  okay U (consume_comments st d) (fun x => exists s' m', live (fst x) s' m' /\ (m' <= m)%nat /\ suffix s' s /\ p_header (snd x) = p_header d /\
    (moves st s d -> (m' < m)%nat)).
Proof. intros L. apply comments_okay; [exact L|exact (live_turns _ _ _ L)]. Qed.
(** ** elements *)
Lemma attrs_okay U : forall fuel st s m d a l, live st s m -> (m < fuel)%nat -> arep a l ->
  okay U (attrs_loop fuel st d a) (fun x => exists s' m', live (fst (fst (fst x))) s' m' /\ (m' <= m)%nat /\ p_header (snd (fst (fst x))) = p_header d).
Proof.
  induction fuel as [|fuel IH]; intros st s m d a l L Lf R; [lia|]. rewrite attrs_loop_S.
  destruct (inspect_live st s m (s2b "/>") L ltac:(sld)) as (st1 & v1 & s1 & m1 & E1 & L1 & Lm1 & _ & _ & _). rewrite E1. cbn [bind].
  destruct (0 <? v1); [apply okay_some; exists s1, m1; auto|].
  destruct (inspect_live st1 s1 m1 (s2b ">") L1 ltac:(sld)) as (st2 & v2 & s2 & m2 & E2 & L2 & Lm2 & _ & _ & _). rewrite E2. cbn [bind].
  destruct (0 <? v2); [apply okay_some; exists s2, m2; repeat split; auto; cbn; lia|].
  destruct (spaces_live _ _ _ L2) as (st3 & s3 & m3 & E3 & L3 & Lm3 & S3 & _). rewrite E3. cbn [bind]. apply suffix_len in S3.
  destruct (until_live false [s2b "="] _ s3 m3 ltac:(gc) L3) as (st4 & o & E4 & s4 & m4 & L4 & Lm4 & _ & O4).
  unfold get_until at 1. rewrite E4. cbn [bind]. destruct o as [[t it]|]; [|apply okay_none].
  destruct (O4 _ _ eq_refl) as (Lt4 & _). cbv zeta. clear O4.
  pose proof (cstr_nul_free t) as Ht. destruct (cstr t) as [|k0 k] eqn:Et; [apply okay_none|]. rewrite <- Et in *. clear k0 k Et.
  destruct (inspect_live st4 s4 m4 ["034"%char] L4 ltac:(sld)) as (st5 & v5 & s5 & m5 & E5 & L5 & Lm5 & _ & _ & _). rewrite E5. cbn [bind].
  apply (okay_bind U _ _ (fun y : stream * ascii => (snd y = "034"%char \/ snd y = "039"%char) /\ exists s' m', live (fst y) s' m' /\ (m' <= m4)%nat)).
  { destruct (0 <? v5); [apply okay_some; split; [auto|]; exists s5, m5; auto|].
    destruct (inspect_live st5 s5 m5 ["039"%char] L5 ltac:(sld)) as (st6 & v6 & s6 & m6 & E6 & L6 & Lm6 & _ & _ & _). rewrite E6. cbn [bind].
    destruct (0 <? v6); [apply okay_some; split; [auto|]; exists s6, m6; cbn; split; [exact L6|lia]|apply okay_none]. }
  clear st5 v5 s5 m5 E5 L5 Lm5. intros [st5 q] [Q (s5 & m5 & L5 & Lm5)]. cbn [fst snd] in *.
  destruct (until_live false [[q]] _ s5 m5 (good_quote q Q) L5) as (st6 & o & E6 & s6 & m6 & L6 & Lm6 & _ & _).
  unfold get_until. rewrite E6. cbn [bind].
  set (value := match o with None => None | Some (t, _) => Some (cstr t) end).
  assert (Hv : forall v, value = Some v -> nul_free v).
  { intros v Ev. unfold value in Ev. destruct o as [[t' it']|]; [|discriminate]. injection Ev as <-. apply cstr_nul_free. }
  clearbody value. destruct (a_has_ok a l (cstr t) R Ht) as [Eh _]. rewrite Eh. cbn [bind].
  destruct (a_has a (cstr t)); [apply okay_none|].
  destruct (a_set_ok a l (cstr t) value R Ht) as (bb & Es & R'). rewrite Es. cbn [bind].
  rewrite (preserve_ok _ _ _ Ht Hv). cbn [bind]. destruct (a_preserve _ _ value) as [pl|]; [|apply okay_none].
  destruct (spaces_live _ _ _ L6) as (st7 & s7 & m7 & E7 & L7 & Lm7 & S7 & _). rewrite E7. cbn [bind]. apply suffix_len in S7.
  apply (okay_imp U U _ _ _ (IH _ _ _ (with_preserve d pl) _ _ L7 ltac:(lia) R')); [auto|].
  intros x (s' & m' & H1 & H2 & H3). exists s', m'. repeat split; auto; lia.
Qed.

Lemma node_okay U st s m d : live st s m ->
  okay U (parse_node st d) (fun x => exists s' m', live (fst (fst x)) s' m' /\ (m' <= m)%nat /\ p_header (snd (fst x)) = p_header d).
Proof.
  intros L. unfold parse_node. eapply okay_bind; [apply (consume_okay U st s m d L)|].
  intros [st1 d1] (s1 & m1 & L1 & Lm1 & _ & Hd1 & _). cbn [fst snd] in *.
  destruct (inspect_live st1 s1 m1 (s2b "<") L1 ltac:(sld)) as (st2 & v2 & s2 & m2 & E2 & L2 & Lm2 & _ & _ & _). rewrite E2. cbn [bind].
  assert (G : exists st3 go s3 m3, (if 0 <? v2 then Ok (st2, true) else stream_remains st2) = Ok (st3, go) /\ live st3 s3 m3 /\ (m3 <= m)%nat).
  { destruct (0 <? v2); [exists st2, true, s2, m2; repeat split; auto; lia|].
    destruct (remains_live _ _ _ L2) as (st3 & more & m3 & E3 & L3 & Lm3 & _). exists st3, more, s2, m3. repeat split; auto; lia. }
  destruct G as (st3 & go & s3 & m3 & E3 & L3 & Lm3). rewrite E3. cbn [bind]. destruct go; cbn [negb]; [|apply okay_none].
  destruct (until_live false [s2b ">"; s2b " "] _ s3 m3 ltac:(gc) L3) as (st4 & o & E4 & s4 & m4 & L4 & Lm4 & _ & _).
  unfold get_until. rewrite E4. cbn [bind]. destruct o as [[t it]|]; [|apply okay_none].
  cbv zeta. destruct (cstr t) as [|k0 k] eqn:Et; [apply okay_none|].
  apply (okay_bind U _ _ (fun y => exists s' m', live (fst (fst (fst (fst y)))) s' m' /\ (m' <= m)%nat /\ p_header (snd (fst (fst (fst y)))) = p_header d)).
  { destruct (it =? 1).
    - destruct (spaces_live _ _ _ L4) as (st5 & s5 & m5 & E5 & L5 & Lm5 & S5 & _). rewrite E5. cbn [bind]. apply suffix_len in S5.
      eapply okay_bind; [apply (attrs_okay U (turns st5) st5 s5 m5 d1 no_attrs [] L5 (live_turns _ _ _ L5) arep_none)|].
      intros [[[st6 d6] a6] e6] (s6 & m6 & L6 & Lm6 & Hd6). cbn [fst snd] in *. apply okay_some. exists s6, m6. cbn [fst snd].
      split; [exact L6|]. split; [lia|congruence].
    - rewrite (rd_last (k0 :: k)) by discriminate. cbn [bind].
      destruct (Ascii.eqb _ _); apply okay_some; exists s4, m4; cbn [fst snd]; (split; [exact L4|]; split; [lia|congruence]). }
  intros [[[[st5 d5] a5] n5] e5] (s5 & m5 & L5 & Lm5 & Hd5). cbn [fst snd] in *.
  destruct e5; apply okay_some; exists s5, m5; cbn [fst snd]; [rewrite h_node|]; auto.
Qed.

Lemma close_okay U st s m d : live st s m ->
  okay U (parse_close_node st d) (fun st' => exists s' m', live st' s' m' /\ (m' <= m)%nat).
Proof.
  intros L. unfold parse_close_node.
  destruct (until_live true [s2b ">"] _ s m ltac:(gc) L) as (st4 & o & E4 & s4 & m4 & L4 & Lm4 & _ & O4).
  unfold get_until_ref. rewrite E4. cbn [bind]. destruct o as [[t it]|]; [|apply okay_none].
  destruct (O4 _ _ eq_refl) as (_ & _ & Ht & _). rewrite rd_last by auto. cbn [bind].
  destruct (p_stack d) as [|n r]; [apply okay_none|]. rewrite axl_cmp_cs. cbn [bind].
  destruct (bytes_eqb _ _); [|apply okay_none]. apply okay_some. exists s4, m4. auto.
Qed.

(** ** the content *)
(** going back over white space *)
Lemma move_back k t st s b : nrm st s b -> back k t st (length s) -> 0 <= k -> k < s_idx st ->
  exists u, nrm (stream_move st k) (u ++ s) b /\ u <> [] /\ forallb is_ws u = true /\ (length (u ++ s) <= t)%nat.
Proof.
  intros (w & f & N & -> & ->) (p & u & r & B' & Lp & I' & W & Lu) Hk Hlt.
  pose proof N as (pre & post & K & B & I & Z & Lb & Ls & L64).
  assert (E : pre = p ++ u).
  { rewrite B in B'. rewrite (app_assoc p u) in B'. apply (app_len _ _ _ _ B'). rewrite app_length. lia. }
  destruct (split_len (Z.to_nat k - length p) u ltac:(lia)) as (u1 & u2 & -> & L1).
  rewrite app_length in *. exists u2. split; [|split; [|split]].
  - exists (u2 ++ w), f. split; [|split; [rewrite <- app_assoc; reflexivity|reflexivity]].
    exists (p ++ u1), post. unfold stream_move, stream_accept. cbn [set_pos s_kind s_buf s_size s_idx s_bufsize].
    rewrite B, E in *. rewrite !app_length in *. rewrite <- !app_assoc in *. repeat split; try assumption; try lia.
  - intros ->. simpl length in *. lia.
  - rewrite forallb_app in W. apply andb_prop in W. apply W.
  - rewrite !app_length in *. lia.
Qed.
Lemma after_lt c l : after (s2b "<") (c :: l) = if Ascii.eqb "<" c then Some l else None.
Proof. reflexivity. Qed.
Lemma content_okay U : forall fuel st s m d, live st s m -> (m < fuel)%nat -> p_header d = true ->
  okay U (content_loop fuel st d) (fun _ => True).
Proof.
  induction fuel as [|fuel IH]; intros st s m d L Lf Hd; [lia|]. cbn [content_loop].
  destruct (remains_live _ _ _ L) as (st1 & more & m1 & E1 & L1 & Lm1 & N1). rewrite E1. cbn [bind].
  destruct more; cbn [negb]; [|apply okay_some; exact I]. destruct (N1 eq_refl) as (b1 & Nb1). clear N1.
  pose proof (live_nrm _ _ _ _ _ L1 Nb1) as Em1. cbv zeta. set (k := s_idx st1) in *.
  assert (Hk : 0 <= k) by (destruct Nb1 as (w & f & (pre & post & _ & _ & Ik & _) & _); unfold k; lia).
  assert (Sp : exists st2 s2 b2, (if hd false (p_preserve d) then Ok st1 else consume_spaces st1) = Ok st2 /\ nrm st2 s2 b2 /\
     (length s2 + b2 <= m1)%nat /\ (b2 <= b1)%nat /\ back k (length s) st2 (length s2)).
  { assert (Bk : back k (length s) st1 (length s)) by (destruct Nb1 as (w & f & N & _); unfold k; eapply back_start, N).
    destruct (hd false (p_preserve d)).
    - exists st1, s, b1. repeat split; auto; lia.
    - unfold consume_spaces. pose proof (live_turns _ _ _ L1).
      destruct (spaces_norm k (length s) (turns st1) st1 s b1 _ Hk Nb1 Bk eq_refl ltac:(lia)) as (st2 & b2 & E2 & N2 & L2 & Bk2 & _).
      exists st2, (skip s), b2. pose proof (skip_len s). repeat split; auto; lia. }
  destruct Sp as (st2 & s2 & b2 & E2 & N2 & Lm2 & Lb2 & Bk2). rewrite E2. cbn [bind].
  destruct (peek_live st2 s2 _ (s2b "<?") (nrm_live _ _ _ N2) ltac:(sld)) as (st3 & v1 & b3 & E3 & N3 & L3 & Y3 & Nn3). rewrite E3. cbn [bind].
  (* comments and instructions *)
  assert (Com : forall st4 b4, nrm st4 s2 b4 -> (length s2 + b4 <= length s2 + b2)%nat ->
     (after (s2b "<?") s2 <> None \/ after (s2b "<!--") s2 <> None \/ (norm st4 s2 (Some []) /\ (length s2 < 4)%nat)) ->
     okay U ('(st, d) <-! consume_comments st4 d ;; content_loop fuel st d) (fun _ => True)).
  { intros st4 b4 N4 Lb4 C. eapply okay_bind; [apply (consume_okay U st4 s2 _ d (nrm_live _ _ _ N4))|].
    intros [st5 d5] (s5 & m5 & L5 & Lm5 & _ & Hd5 & P5). cbn [fst snd] in *.
    assert (m5 < length s2 + b4)%nat.
    { apply P5. split; [eauto|]. destruct C as [C|[C|C]]; [left; auto|right; left; exact C|right; right; exact C]. }
    apply (IH _ _ _ d5 L5); [lia|congruence]. }
  destruct (0 <? v1) eqn:V1.
  { cbn [bind orb]. apply (Com st3 b3 N3 L3). destruct (Y3 eq_refl) as (s' & m' & _ & _ & _ & [-> |(_ & C1 & C2)]).
    - left. cbn. discriminate.
    - right. right. split; [exact C1|]. cbn in C2. lia. }
  destruct (Nn3 eq_refl (ex_intro _ b2 N2)) as (_ & R3).
  destruct (peek_live st3 s2 _ (s2b "<!--") (nrm_live _ _ _ N3) ltac:(sld)) as (st4 & v2 & b4 & E4 & N4 & L4 & Y4 & Nn4). rewrite E4. cbn [bind orb].
  destruct (0 <? v2) eqn:V2.
  { apply (Com st4 b4 N4 ltac:(lia)). destruct (Y4 eq_refl) as (s' & m' & _ & _ & _ & [-> |(_ & C1 & C2)]).
    - right. left. cbn. discriminate.
    - right. right. split; [exact C1|]. exact C2. }
  destruct (Nn4 eq_refl (ex_intro _ b3 N3)) as (_ & R4). clear Com Y3 Nn3 Y4 Nn4.
  (* the end of an element *)
  destruct (peek_live st4 s2 _ (s2b "</") (nrm_live _ _ _ N4) ltac:(sld)) as (st5 & v3 & b5 & E5 & N5 & L5 & Y5 & Nn5). rewrite E5. cbn [bind].
  destruct (0 <? v3) eqn:V3.
  { destruct (Y5 eq_refl) as (s6 & m6 & L6 & Lm6 & _).
    destruct (close_okay U _ _ _ d L6) as [[Ec HU]|(o & Ec & Ho)]; rewrite Ec; [left; auto|].
    destruct o as [st7|]; [|apply okay_none]. destruct (Ho _ eq_refl) as (s7 & m7 & L7 & Lm7).
    destruct (p_stack d) as [|n [|n' r]]; [apply okay_none|apply okay_some; exact I|].
    apply (IH _ _ _ _ L7); [lia|]. cbn [p_header with_preserve]. rewrite h_node. exact Hd. }
  destruct (Nn5 eq_refl (ex_intro _ b4 N4)) as (_ & R5). clear Y5 Nn5.
  destruct (peek_live st5 s2 _ (s2b "<![CDATA[") (nrm_live _ _ _ N5) ltac:(sld)) as (st6 & v4 & b6 & E6 & N6 & L6 & Y6 & Nn6). rewrite E6. cbn [bind].
  destruct (0 <? v4) eqn:V4.
  { destruct (Y6 eq_refl) as (s7 & m7 & L7 & Lm7 & _).
    destruct (until_live false [s2b "]]>"] _ s7 m7 ltac:(gc) L7) as (st8 & o & E8 & s8 & m8 & L8 & Lm8 & _ & _).
    unfold get_until at 1. rewrite E8. cbn [bind]. destruct o as [[t it]|]; [|apply okay_none].
    apply (IH _ _ _ _ L8); [lia|]. rewrite h_item. exact Hd. }
  destruct (Nn6 eq_refl (ex_intro _ b5 N5)) as (_ & R6). clear Y6 Nn6.
  destruct (peek_live st6 s2 _ (s2b "<") (nrm_live _ _ _ N6) ltac:(sld)) as (st7 & v5 & b7 & E7 & N7 & L7 & Y7 & Nn7). rewrite E7. cbn [bind].
  destruct (0 <? v5) eqn:V5.
  { destruct (Y7 eq_refl) as (s8 & m8 & L8 & Lm8 & _). eapply okay_bind; [apply (node_okay U _ _ _ d L8)|].
    intros [[st9 d9] e9] (s9 & m9 & L9 & Lm9 & Hd9). cbn [fst snd] in *. apply (IH _ _ _ _ L9); [lia|congruence]. }
  (* text *)
  destruct (Nn7 eq_refl (ex_intro _ b6 N6)) as (A7 & R7). clear Y7 Nn7.
  assert (Bk7 : back k (length s) st7 (length s2)).
  { repeat (eapply back_rested; [exact Hk| |eassumption]). exact Bk2. }
  assert (T : exists st8 s8, (if k <? s_idx st7 then stream_move st7 k else st7) = st8 /\ nrm st8 s8 b7 /\ (length s8 <= length s)%nat /\
    after (s2b "<") s8 = None).
  { destruct (Z.ltb_spec k (s_idx st7)) as [H|H].
    - destruct (move_back k _ st7 s2 b7 N7 Bk7 Hk H) as (u & Nu & Hu & Wu & Lu). eexists _, (u ++ s2). split; [reflexivity|]. split; [exact Nu|].
      split; [exact Lu|]. destruct u as [|c u]; [contradiction|]. cbn [forallb] in Wu. apply andb_prop in Wu. destruct Wu as [Wc _].
      cbn [app]. rewrite after_lt. destruct (Ascii.eqb_spec "<"%char c) as [<- |]; [discriminate Wc|reflexivity].
    - exists st7, s2. split; [reflexivity|]. split; [exact N7|]. split; [exact (back_le _ _ _ _ Bk7)|exact A7]. }
  destruct T as (st8 & s8 & E8 & N8 & L8 & A8). rewrite E8.
  destruct (until_nrm false false [s2b "<"] st8 s8 b7 ltac:(discriminate) ltac:(gc) N8) as (st9 & o & E9 & b9 & Lb9 & G9).
  unfold get_until. rewrite E9. cbn [bind]. destruct o as [[t it]|]; [|apply okay_none].
  destruct G9 as [[G9 _]|(t' & c & s9 & Es9 & Hc & (y & ity & Hs) & N9 & Ho)]; [discriminate|].
  assert (Ht : t' <> []).
  { intros ->. cbn [app] in Es9. subst s8. clear - Hs Hc A8. destruct c as [|x c]; [contradiction|]. unfold stop_at in Hs. cbn [existsb ws_chunk orb andb] in Hs.
    cbn [app hit] in *. rewrite after_lt in *. destruct (Ascii.eqb "<" x); [discriminate|].
    change (ws_chunk (s2b "<")) with false in Hs. cbn [orb andb hit] in Hs. discriminate. }
  apply (IH _ _ _ _ (nrm_live _ _ _ N9)); [|rewrite h_item; exact Hd].
  cbv iota. rewrite Es9 in L8. rewrite (app_length t') in L8. assert (1 <= length t')%nat by (destruct t'; [contradiction|simpl; lia]).
  lia.
Qed.
