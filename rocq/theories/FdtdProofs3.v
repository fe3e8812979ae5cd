(** The loader on files compared with its version on texts. *)
From Verif Require Import Prelude StrModel StrSpec StrProofs StrProofs2 StrProofs3 TreeModel StreamModel StreamProofs ParseModel ParseProofs
  FileProofs2 FileProofs3 DtdModel DtdDocModel LoadModel LoadProofs LoadProofs2 LoadProofs3 LoadProofs4.
Open Scope Z_scope.
Local Arguments Z.of_nat : simpl never.
Local Arguments Z.to_nat : simpl never.
Local Arguments Z.add : simpl never.
Local Arguments Z.sub : simpl never.
Local Arguments Z.eqb : simpl never.
Local Arguments Z.ltb : simpl never.
Local Arguments Z.leb : simpl never.

(** ** file streams without comments and references in sight *)
Definition clean (s : bytes) : Prop := ~ occurs (s2b "<!--") s /\ ~ In "%"%char s.
Lemma clean_suffix a s : clean (a ++ s) -> clean s.
Proof. intros [A B]. split; [intros H; apply A, occurs_suffix, H|intros H; apply B, in_or_app; right; exact H]. Qed.
Definition fd (st : stream) (s : bytes) : Prop := fm false st s /\ clean s.
Lemma clean_skip s : clean s -> clean (skip s).
Proof. intros C. destruct (skip_split s) as (w & E & _). rewrite E in C. apply clean_suffix in C. exact C. Qed.
Lemma clean_rest s c : clean s -> clean (rest_of s c).
Proof. intros C. unfold rest_of. destruct (after c s) as [r|] eqn:E; [|exact C]. apply after_Some in E. subst s. apply clean_suffix in C. exact C. Qed.
Lemma clean_until chunks s t it a b : clean s -> Forall good_chunk chunks -> until chunks s = Some (t, it, a, b) -> clean a /\ clean b.
Proof.
  intros C G U. destruct (until_split _ G _ _ _ _ _ U) as (m & -> & -> & _). apply clean_suffix in C. split; [exact C|]. apply clean_suffix in C. exact C.
Qed.

Lemma d_inspect st s c : fd st s -> solid c ->
  exists st' v, stream_inspect st c = Ok (st', v) /\ (0 <? v) = (match after c s with Some _ => true | None => false end) /\ fd st' (rest_of s c).
Proof.
  intros [F C] S. destruct (f_inspect _ _ _ _ F S) as (st' & v & E & V & _ & F'). exists st', v. split; [exact E|]. split; [exact V|].
  split; [exact F'|apply clean_rest, C].
Qed.
(** at the end of the file nothing more is read *)
Lemma nil_inspect st c : fm false st [] -> c <> [] -> exists st', stream_inspect st c = Ok (st', -1).
Proof.
  intros (_ & win & left & E & M) N. symmetry in E. apply app_eq_nil in E. destruct E as [-> ->].
  pose proof M as (pre & post & K & B & I & Z & Lb & Ls & L64 & T). unfold stream_inspect, common_inspect.
  destruct (fmem_prebuffer _ _ _ M) as (st1 & win1 & left1 & more & E & M1 & (x & -> & El & -> & _) & _).
  destruct x; [|discriminate]. cbn [length] in Z.
  replace (s_size st <? Z.of_nat (length c) + s_idx st) with true.
  - rewrite E. cbn [bind negb]. eauto.
  - symmetry. apply Z.ltb_lt. destruct c; [contradiction|]. simpl length. lia.
Qed.
Lemma d_inspect1 st s c : fd st s -> solid c -> length c = 1%nat -> exists st', stream_inspect st c = Ok (st', insp s c) /\ fd st' (rest_of s c).
Proof.
  intros [F C] S L. destruct (f_inspect _ _ _ _ F S) as (st' & v & E & V & X & F'). exists st'.
  assert (v = insp s c) as <-; [|split; [exact E|]; split; [exact F'|apply clean_rest, C]].
  destruct X as [X|[X ->]]; [exact X|]. destruct s; [|simpl in X; lia].
  destruct (nil_inspect st c F) as (st2 & E2); [destruct c; discriminate|]. rewrite E in E2. inversion E2.
Qed.
Lemma d_peek st s c : fd st s -> solid c ->
  exists st' v, stream_peek st c = Ok (st', v) /\ (0 <? v) = (match after c s with Some _ => true | None => false end) /\
    fd st' s /\ (after c s <> None -> fd (stream_accept st') (rest_of s c)).
Proof.
  intros [F C] S. destruct (f_peek _ _ _ _ F S) as (st' & v & E & V & F' & _ & A). exists st', v. split; [exact E|]. split; [exact V|].
  split; [split; assumption|]. intros N. split; [apply A, N|apply clean_rest, C].
Qed.
Lemma d_spaces st s : fd st s -> exists st', consume_spaces st = Ok st' /\ fd st' (skip s).
Proof. intros [F C]. destruct (f_spaces _ _ _ F) as (st' & E & F'). exists st'. split; [exact E|]. split; [exact F'|apply clean_skip, C]. Qed.
Lemma d_remains st s : fd st s -> exists st', stream_remains st = Ok (st', match s with [] => false | _ => true end) /\ fd st' s.
Proof. intros [F C]. destruct (f_remains _ _ _ F) as (st' & E & F' & _). exists st'. split; [exact E|split; assumption]. Qed.
Lemma d_until st s acc chunks : fd st s -> Forall solid chunks -> short chunks ->
  match until chunks s with
  | None => exists st', get_until st acc chunks = Ok (st', None) /\ fd st' s
  | Some (t, it, a, b) => exists st', get_until st acc chunks = Ok (st', Some (t, it)) /\ fd st' (if acc then b else a)
  end.
Proof.
  intros [F C] S Sh. assert (G : Forall good_chunk chunks) by (eapply Forall_impl; [|exact S]; apply solid_good).
  pose proof (f_until _ _ _ acc _ F S Sh) as H. destruct (until chunks s) as [[[[t it] a] b]|] eqn:U; destruct H as (st' & E & F'); exists st'; (split; [exact E|]);
    (split; [exact F'|]); [|exact C]. destruct (clean_until _ _ _ _ _ _ C G U). destruct acc; assumption.
Qed.
(** with white space among the terminators, the last byte of the file may be missed *)
Lemma d_until_ws st s acc chunks : fd st s -> Forall (fun c => solid c \/ c = s2b " ") chunks -> existsb ws_chunk chunks = true -> short chunks ->
  match until chunks s with
  | None => exists st', get_until st acc chunks = Ok (st', None) /\ fd st' s
  | Some (t, it, a, b) => (exists st', get_until st acc chunks = Ok (st', Some (t, it)) /\ fd st' (if acc then b else a)) \/
     (b = [] /\ skip a = [] /\ it = empty_index chunks 0 0 /\ exists st', get_until st acc chunks = Ok (st', None))
  end.
Proof.
  intros [F C] S W Sh. assert (G : Forall good_chunk chunks) by (eapply Forall_impl; [|exact S]; intros c [H|H]; [apply solid_good, H|subst c; split; [nf|discriminate]]).
  pose proof (f_get_until _ _ _ acc _ F G Sh) as H. destruct (until chunks s) as [[[[t it] a] b]|] eqn:U.
  2: { destruct H as (st' & E & F'). exists st'. split; [exact E|split; assumption]. }
  destruct H as [(st' & E & F')|(-> & st' & E)].
  - left. exists st'. split; [exact E|]. split; [exact F'|]. destruct (clean_until _ _ _ _ _ _ C G U). destruct acc; assumption.
  - right. split; [reflexivity|]. destruct (until_split _ G _ _ _ _ _ U) as (m & Es & Ea & Hm & St). rewrite app_nil_r in Ea. subst m.
    assert (T : tail_ws a) by (apply (tail_ws_suffix t); rewrite <- Es; apply (fm_tail _ _ _ F)).
    unfold stop_at in St. rewrite W in St. cbn [andb] in St. destruct a as [|c a]; [contradiction|]. destruct (is_ws c) eqn:Wc.
    + injection St as <- L. destruct a; [|discriminate]. cbn [skip]. rewrite Wc. eauto.
    + exfalso. apply hit_in in St. destruct St as (x & r & Ix & Wx & L & Er).
      assert (r = []) as ->. { apply (f_equal (@length _)) in Er. rewrite app_length in Er. destruct r; [reflexivity|]. simpl in Er, L. lia. }
      rewrite app_nil_r in Er. subst x. rewrite Forall_forall in S. destruct (S _ Ix) as [Sx|Sx]; [|rewrite Sx in Wx; discriminate].
      destruct T as [T|(u & y & T & Wy)]; [discriminate|]. rewrite (solid_last _ u y Sx T) in Wy. discriminate.
Qed.
Lemma clean_none s : clean s -> after (s2b "<!--") s = None.
Proof. intros [A _]. destruct (after _ s) as [r|] eqn:E; [|reflexivity]. apply after_Some in E. subst s. destruct A. exists [], r. reflexivity. Qed.
Lemma clean_percent s : clean s -> after (s2b "%") s = None.
Proof. intros [_ A]. destruct (after _ s) as [r|] eqn:E; [|reflexivity]. apply after_Some in E. subst s. destruct A. left. reflexivity. Qed.
Lemma clean_comments s : clean s -> a_comments s pdoc_new = Some (skip s, pdoc_new).
Proof. intros C. rewrite a_comments_eq. unfold a_comment. rewrite (clean_none _ (clean_skip _ C)). cbn [pdoc_new p_header]. rewrite skip_skip. reflexivity. Qed.
Lemma d_comments st s : fd st s -> exists st', consume_comments st pdoc_new = Ok (Some (st', pdoc_new)) /\ fd st' (skip s).
Proof.
  intros D. unfold consume_comments. pose proof (fm_turns _ _ _ (proj1 D)) as L. destruct (turns st) as [|f]; [lia|]. cbn [comments_loop].
  destruct (d_spaces _ _ D) as (st1 & -> & F1). cbn [bind].
  destruct (d_inspect _ _ (s2b "<!--") F1 ltac:(sol)) as (st2 & v2 & -> & V2 & F2). cbn [bind]. unfold rest_of in F2.
  rewrite (clean_none _ (proj2 F1)) in V2, F2. rewrite V2. cbn [bindo].
  destruct (d_spaces _ _ F2) as (st3 & -> & F3). cbn [bind pdoc_new p_header]. rewrite skip_skip in F3. change (0 <? 0) with false. cbn [bindo].
  destruct (d_spaces _ _ F3) as (st5 & -> & F5). rewrite skip_skip in F5. cbn [bind]. exists st5. auto.
Qed.

(** ** what the version on texts gives, the one on files gives as well *)
Definition simd {A} (r : res (option (stream * A))) (o : res (option (bytes * A))) : Prop :=
  match o with
  | Ok None => r = Ok None
  | Ok (Some (s, x)) => exists st, r = Ok (Some (st, x)) /\ fd st s
  | _ => True
  end.
Lemma simd_bind {A B} (r : res (option (stream * A))) o (k : stream * A -> res (option (stream * B))) k' : simd r o ->
  (forall st s x, fd st s -> simd (k (st, x)) (k' (s, x))) -> simd (bindo r k) (bindo o k').
Proof. intros H Hk. destruct o as [[[s x]|]| |]; cbn in H; [destruct H as (st & -> & M); apply Hk, M|subst; reflexivity|exact I|exact I]. Qed.

Ltac d_step :=
  match goal with
  | M : fd ?st ?s |- context [consume_spaces ?st] =>
    let st' := fresh "st" in let E := fresh "E" in let M' := fresh "M" in
    destruct (d_spaces st s M) as (st' & E & M'); rewrite E; cbn [bind]; clear E M; rename M' into M
  | M : fd ?st ?s |- context [stream_inspect ?st ?c] =>
    let st' := fresh "st" in let E := fresh "E" in let M' := fresh "M" in let v := fresh "v" in let V := fresh "V" in
    destruct (d_inspect st s c M) as (st' & v & E & V & M'); [sol|]; rewrite E; cbn [bind]; rewrite ?V; clear E M; rename M' into M
  | M : fd ?st ?s |- context [stream_peek ?st ?c] =>
    let st' := fresh "st" in let E := fresh "E" in let M' := fresh "M" in let A := fresh "A" in let v := fresh "v" in let V := fresh "V" in
    destruct (d_peek st s c M) as (st' & v & E & V & M' & A); [sol|]; rewrite E; cbn [bind]; rewrite ?V; clear E M; rename M' into M
  | M : fd ?st ?s |- context [get_until ?st ?acc ?c] =>
    let st' := fresh "st" in let E := fresh "E" in let M' := fresh "M" in
    let H := fresh "H" in
    pose proof (d_until st s acc c M ltac:(repeat (constructor; [sol|]); constructor) ltac:(sh)) as H; destruct (until c s) as [[[[? ?] ?] ?]|];
    (destruct H as (st' & E & M'); rewrite E; cbn [bind]; clear E M; rename M' into M)
  end.
Ltac d_one :=
  match goal with
  | M : fd ?st ?s |- context [stream_inspect ?st ?c] =>
    let st' := fresh "st" in let E := fresh "E" in let M' := fresh "M" in
    destruct (d_inspect1 st s c M) as (st' & E & M'); [sol|reflexivity|]; rewrite E; cbn [bind]; clear E M; rename M' into M
  end.
Ltac d_ws X :=
  match goal with
  | M : fd ?st ?s |- context [get_until ?st ?acc ?c] =>
    pose proof (d_until_ws st s acc c M ltac:(repeat (constructor; [first [right; reflexivity|left; sol]|]); constructor) eq_refl ltac:(sh)) as X;
    let U := fresh "U" in destruct (until c s) as [[[[? ?] ?] ?]|] eqn:U
  end.

Lemma d_which {A} : forall (l : list (bytes * A)) st s d, fd st s -> Forall solid (map fst l) ->
  exists st', which st l d = Ok (st', snd (t_which s l d)) /\ fd st' (fst (t_which s l d)).
Proof.
  induction l as [|[c v] l IH]; intros st s d M G; [exists st; auto|]. inversion G as [|? ? G1 G']; subst. cbn [which t_which].
  destruct (d_inspect st s c M G1) as (st' & v' & E & V & M'). rewrite E. cbn [bind]. rewrite V. unfold rest_of in M'.
  destruct (after c s); [exists st'; auto|]. apply IH; assumption.
Qed.
Ltac sols := repeat (constructor; [sol|]); constructor.
Ltac d_whi :=
  match goal with
  | M : fd ?st ?s |- context [which ?st ?l ?d] =>
    let st' := fresh "st" in let E := fresh "E" in let M' := fresh "M" in
    destruct (d_which l st s d M) as (st' & E & M'); [sols|]; rewrite E; cbn [bind]; clear E M; rename M' into M
  end.

Lemma d_close : forall stack st s chunk cur, fd st s ->
  exists st', close_loop st chunk cur stack = (let '(_, c, o, k) := t_close s chunk cur stack in Ok (st', c, o, k)) /\
    fd st' (fst (fst (fst (t_close s chunk cur stack)))).
Proof.
  induction stack as [|up stack IH]; intros st s chunk cur M; cbn [close_loop t_close]; unfold repetition.
  - d_step. fold reps_of. d_whi. destruct (t_which (skip s) reps_of TOne) as [s1 t]. cbn [fst snd] in *. d_step. fold seps_of. d_whi.
    destruct (t_which (skip s1) seps_of chunk) as [s2 c]. cbn [fst snd] in *. d_step. d_step. eexists. split; [reflexivity|assumption].
  - d_step. fold reps_of. d_whi. destruct (t_which (skip s) reps_of TOne) as [s1 t]. cbn [fst snd] in *. d_step. fold seps_of. d_whi.
    destruct (t_which (skip s1) seps_of chunk) as [s2 c]. cbn [fst snd] in *. d_step. d_step. unfold rest_of in M. destruct (after (s2b ")") (skip s2)).
    + apply IH. assumption.
    + eexists. split; [reflexivity|assumption].
Qed.
Lemma d_separator st s : fd st s ->
  match t_separator s with Some (s', c) => exists st', update_separator st = Ok (Some (st', c)) /\ fd st' s' | None => update_separator st = Ok None end.
Proof.
  intros M. unfold update_separator, t_separator. d_step. fold ends_of. d_whi. destruct (t_which (skip s) ends_of None) as [s1 [c|]]; cbn [fst snd] in *; eauto.
Qed.
Lemma d_name st s ty cur stack x chunk : fd st s ->
  match t_name s ty cur stack x chunk with
  | None => name_step st ty cur stack x chunk = Ok None
  | Some (s', c, ty', o, k) => exists st', name_step st ty cur stack x chunk = Ok (Some (st', c, ty', o, k)) /\ fd st' s'
  end.
Proof.
  intros M. unfold name_step, t_name.
  assert (exists st1, (if chunk =? 0 then st <- consume_spaces st ;; update_chunk st chunk else Ok (st, chunk)) =
    Ok (st1, snd (if chunk =? 0 then t_which (skip s) chunks_of chunk else (s, chunk))) /\
    fd st1 (fst (if chunk =? 0 then t_which (skip s) chunks_of chunk else (s, chunk)))) as (st1 & E1 & M1).
  { destruct (chunk =? 0); [|exists st; auto]. unfold update_chunk. d_step. fold chunks_of. d_whi. eauto. }
  rewrite E1. cbn [bind]. destruct (if chunk =? 0 then t_which (skip s) chunks_of chunk else (s, chunk)) as [s1 c1]. cbn [fst snd] in *. clear E1 M.
  assert (match (if (c1 =? 4) || (c1 =? 5) || (c1 =? 6) then t_separator s1 else Some (s1, c1)) with
          | None => (if (c1 =? 4) || (c1 =? 5) || (c1 =? 6) then update_separator st1 else Ok (Some (st1, c1))) = Ok None
          | Some (s', c) => exists st', (if (c1 =? 4) || (c1 =? 5) || (c1 =? 6) then update_separator st1 else Ok (Some (st1, c1))) = Ok (Some (st', c)) /\ fd st' s' end) as H.
  { destruct (_ || _ || _); [apply d_separator; assumption|eauto]. }
  destruct (if (c1 =? 4) || (c1 =? 5) || (c1 =? 6) then t_separator s1 else Some (s1, c1)) as [[s2 c2]|]; [|rewrite H; reflexivity]. destruct H as (st2 & -> & M2). cbn [bindo].
  destruct (retype _ c2) as [nt|]; [|reflexivity]. set (cur' := Open nt _ _).
  assert (exists st', (if c2 =? 3 then close_loop st2 c2 cur' stack else Ok (st2, c2, cur', stack)) =
    (let '(_, c, o, k) := if c2 =? 3 then t_close s2 c2 cur' stack else (s2, c2, cur', stack) in Ok (st', c, o, k)) /\
    fd st' (fst (fst (fst (if c2 =? 3 then t_close s2 c2 cur' stack else (s2, c2, cur', stack)))))) as (st3 & E3 & M3).
  { destruct (c2 =? 3); [apply d_close; assumption|exists st2; auto]. }
  rewrite E3. destruct (if c2 =? 3 then t_close s2 c2 cur' stack else (s2, c2, cur', stack)) as [[[s4 c4] o4] k4]. cbn [bind fst] in *. eauto.
Qed.
(** at the end of the text there is no content specification *)
Lemma spec_nil f s ty cur stack : skip s = [] -> t_spec f s ty cur stack = NoFuel \/ t_spec f s ty cur stack = Ok None.
Proof. intros E. destruct f as [|f]; [left; reflexivity|right]. cbn [t_spec]. rewrite E. reflexivity. Qed.
Lemma name_nil ty cur stack x : exists ty' o k, t_name [] ty cur stack x 0 = Some ([], 0, ty', o, k).
Proof.
  unfold t_name. change (0 =? 0) with true. cbv iota. change (t_which (skip []) chunks_of 0) with (@nil ascii, 0). cbv iota beta zeta.
  change ((0 =? 4) || (0 =? 5) || (0 =? 6)) with false. cbv iota. unfold retype. change (0 =? 1) with false. change (0 =? 2) with false. change (0 =? 3) with false.
  cbv iota. eauto.
Qed.
Lemma d_spec : forall f st s ty cur stack, fd st s -> simd (spec_loop f st ty cur stack) (t_spec f s ty cur stack).
Proof.
  induction f as [|f IH]; intros st s ty cur stack M; [exact I|]. rewrite spec_loop_S. cbn [t_spec]. d_step. d_step.
  unfold rest_of in M. destruct (after (s2b "(") (skip s)); [apply IH; assumption|].
  d_ws X; [|destruct X as (st' & -> & _); reflexivity].
  destruct X as [(st' & E & M')|(-> & _ & -> & st' & E)]; rewrite E; cbn [bind].
  - clear M. rename M' into M. match goal with |- context [if ?c =? 8 then _ else _] => destruct (c =? 8); [reflexivity|] end.
    match goal with |- context [name_step ?a ?b ?c ?d ?e ?g] => pose proof (d_name a _ b c d e g M) as H end.
    destruct (t_name _ _ _ _ _ _) as [[[[[s2 c2] ty2] o2] k2]|]; [|rewrite H; reflexivity].
    destruct H as (st4 & -> & M4). cbn [bindo]. destruct (negb (c2 =? 3) || _); [apply IH; assumption|]. cbn. eauto.
  - change (empty_index particle_stops 0 0) with 0. change (0 =? 8) with false. cbv iota.
    match goal with |- context [t_name [] ?a ?b ?c ?d 0] => destruct (name_nil a b c d) as (ty' & o & k & ->) end.
    change (negb (0 =? 3)) with true. cbn [orb]. destruct (spec_nil f [] ty' o k eq_refl) as [-> | ->]; [exact I|reflexivity].
Qed.
Lemma d_read_spec st s : fd st s -> simd (read_spec st) (t_read_spec s).
Proof.
  intros M. unfold read_spec, t_read_spec. d_step. d_one. destruct (_ =? 0); [reflexivity|]. cbv zeta. pose proof (fm_turns _ _ _ (proj1 M)) as T.
  match goal with |- context [turns ?x] => 
  rewrite (spec_fuel (length (rest_of (skip s) (s2b "("))) _ (S (length (rest_of (skip s) (s2b "(")))) (turns x)) by lia end.
  apply d_spec, M.
Qed.
Lemma read_spec_nil s : skip s = [] -> t_read_spec s = Ok None.
Proof. intros E. unfold t_read_spec. rewrite E. cbn. reflexivity. Qed.

Lemma d_element st s l : fd st s -> simd (parse_element st l) (t_element s l).
Proof.
  intros M. unfold parse_element, t_element. d_step. d_step. unfold rest_of in M. destruct (after (s2b "<!ELEMENT") (skip s)); cbn [negb]; [|reflexivity].
  d_step. d_ws X; [|destruct X as (st' & -> & _); reflexivity].
  destruct X as [(st' & E & M')|(-> & Sk & -> & st' & E)]; rewrite E; cbn [bind].
  - clear M. rename M' into M. cbn [fst snd]. destruct (_ || _); [reflexivity|]. d_step.
    match goal with M : fd ?st (skip ?s) |- context [stream_peek ?st _] => remember (skip s) as s1 end.
    d_step. apply (simd_bind (A := el_type * option part)).
    + unfold t_content. destruct (after (s2b "EMPTY") s1) eqn:E1.
      * eexists. split; [reflexivity|]. unfold rest_of in A. rewrite E1 in A. apply A. discriminate.
      * d_step. destruct (after (s2b "ANY") s1) eqn:E2.
        -- eexists. split; [reflexivity|]. unfold rest_of in A0. rewrite E2 in A0. apply A0. discriminate.
        -- apply (simd_bind (A := el_type * part)); [apply d_read_spec; assumption|]. intros stx s' [ty p] M'. eexists. split; [reflexivity|assumption].
    + clear. intros st s [ty p] M. destruct (existsb _ _); [reflexivity|]. d_step. d_one. destruct (_ =? 0); [reflexivity|].
      eexists. split; [reflexivity|assumption].
  - change (empty_index [s2b ">"; s2b "("; s2b " "] 0 0) with 2. change ((2 =? 0) || (2 =? 3)) with false. cbv iota. rewrite Sk. unfold t_content.
    change (after (s2b "EMPTY") []) with (@None bytes). change (after (s2b "ANY") []) with (@None bytes). cbv iota. rewrite read_spec_nil by reflexivity. reflexivity.
Qed.

(** ** <!ATTLIST *)
Lemma d_att_type st s : fd st s -> simd (att_type st) (t_att_type s).
Proof.
  intros M. unfold att_type, t_att_type. destruct (d_which att_types st s None M ltac:(sols)) as (st1 & E & M1). rewrite E. cbn [bind]. clear E M.
  destruct (t_which s att_types None) as [s1 o]. cbn [fst snd] in *. destruct o as [ty|]; [|reflexivity].
  assert (forall ty, simd (Ok (Some (st1, ty))) (Ok (Some (s1, ty : at_type)))) as G by (intros; eexists; split; [reflexivity|exact M1]).
  destruct ty; try apply G. rename M1 into M. d_step; [|reflexivity]. destruct (enum_total (cstr b) (cstr_nul_free b)) as (l & ->). cbn [bind].
  eexists. split; [reflexivity|exact M].
Qed.
Lemma d_default st s : fd st s -> simd (att_default st) (Ok (t_default s)).
Proof.
  intros M. unfold att_default, t_default. d_whi. destruct (t_which s _ None) as [s1 o]. cbn [fst snd] in *.
  destruct o as [d|]; [eexists; split; [reflexivity|exact M]|]. d_step.
  assert (forall st s d, fd st s -> simd ('(st0, v) <- stream_peek st dquote ;; '(st1, v0) <- (if 0 <? v then Ok (st0, v) else stream_peek st0 (s2b "'")) ;;
    if 0 <? v0 then Ok (Some (st1, d)) else Ok None)
    (Ok match after dquote s with Some _ => Some (s, d) | None => match after (s2b "'") s with Some _ => Some (s, d : at_default) | None => None end end)) as G.
  { clear. intros st s d M. d_step. destruct (after dquote s) eqn:E.
    - cbn [bind]. rewrite V. eexists; split; [reflexivity|exact M].
    - d_step. destruct (after (s2b "'") s); [eexists; split; [reflexivity|exact M]|reflexivity]. }
  unfold rest_of in M. destruct (after (s2b "#FIXED") s1).
  - d_step. apply G, M.
  - cbn [bind]. apply G, M.
Qed.
Lemma d_quoted st s q : fd st s -> q = dquote \/ q = s2b "'" ->
  exists st', ('(st, o) <- get_until st true [q] ;; Ok (st, match o with Some (x, _) => Some (cstr x) | None => None end)) =
    Ok (st', match until [q] s with Some (x, _, _, s) => Some (cstr x) | None => None end) /\
    fd st' match until [q] s with Some (x, _, _, s) => s | None => s end.
Proof. intros M [-> | ->]; d_step; eexists; (split; [reflexivity|exact M]). Qed.
Lemma d_att_value st s : fd st s -> exists st', att_value st = Ok (st', snd (t_value s)) /\ fd st' (fst (t_value s)).
Proof.
  intros M. unfold att_value, t_value. destruct (d_which [(dquote, Some dquote); (s2b "'", Some (s2b "'"))] st s None M ltac:(sols)) as (st1 & -> & M1).
  cbn [bind]. assert (forall q, snd (t_which s [(dquote, Some dquote); (s2b "'", Some (s2b "'"))] None) = Some q -> q = dquote \/ q = s2b "'") as Q.
  { intros q. cbn [t_which]. destruct (after dquote s); [intros E; inversion E; auto|]. destruct (after (s2b "'") s); [intros E; inversion E; auto|discriminate]. }
  destruct (t_which s _ None) as [s1 [q|]]; cbn [fst snd] in *; [|eauto].
  destruct (d_quoted st1 s1 q M1 (Q q eq_refl)) as (st2 & E & M2). rewrite E. exists st2. destruct (until [q] s1) as [[[[x i] a] b]|]; auto.
Qed.
Lemma d_expand st s ents : fd st s -> exists st', expand st ents = Ok (Some st') /\ fd st' s /\ t_expand s ents = Some s.
Proof.
  intros M. unfold expand, t_expand. destruct (d_inspect st s (s2b "%") M ltac:(sol)) as (st1 & v & E & V & M1). rewrite E. cbn [bind]. rewrite V.
  unfold rest_of in M1. rewrite (clean_percent _ (proj2 M)) in *. cbn [negb]. exists st1. auto.
Qed.
Lemma d_atts ents : forall f st s decls id idref, fd st s -> simd (att_loop f ents st decls id idref) (t_atts f ents s decls id idref).
Proof.
  induction f as [|f IH]; intros st s decls id idref M; [exact I|]. rewrite att_loop_S. cbn [t_atts]. d_step. d_step.
  unfold rest_of in M. destruct (after (s2b ">") (skip s)); [eexists; split; [reflexivity|exact M]|]. d_ws X; [|destruct X as (st' & -> & _); reflexivity].
  destruct X as [(st' & E & M')|(-> & Sk & -> & st' & E)]; rewrite E; cbn [bind].
  2: { rewrite Sk. reflexivity. }
  clear M. rename M' into M. d_step.
  match goal with M : fd ?st ?s |- context [expand ?st ents] => destruct (d_expand st s ents M) as (st4 & -> & M4 & ->) end. cbn [bindo].
  apply simd_bind; [apply d_att_type, M4|]. clear - IH. intros st s2 ty M. d_step.
  match goal with M : fd ?st ?s |- context [att_default ?st] => pose proof (d_default st s M) as X end.
  destruct (t_default _) as [[s3 df]|]; unfold simd in X; [|rewrite X; reflexivity]. destruct X as (st5 & -> & M5). cbn [bindo].
  destruct (bad_id _ _ _ _); [reflexivity|]. clear M. rename M5 into M. d_step.
  match goal with M : fd ?st ?s |- context [att_value ?st] => destruct (d_att_value st s M) as (st6 & -> & M6) end. cbn [bind].
  destruct (t_value _) as [s4 value]. cbn [fst snd] in *. destruct (bad_enum _ _); [reflexivity|]. apply IH, M6.
Qed.
Lemma atts_nil f ents s decls id idref : skip s = [] -> t_atts f ents s decls id idref = NoFuel \/ t_atts f ents s decls id idref = Ok None.
Proof. intros E. destruct f; [left; reflexivity|right]. cbn [t_atts]. rewrite E. reflexivity. Qed.
Lemma d_attlist f st s l : fd st s -> simd (parse_attlist f st l) (t_attlist f s l).
Proof.
  intros M. unfold parse_attlist, t_attlist. d_step. d_ws X; [|destruct X as (st' & -> & _); reflexivity]. cbv zeta.
  destruct X as [(st' & E & M')|(-> & Sk & -> & st' & E)]; rewrite E; cbn [bind].
  - apply (simd_bind (A := list at_decl * bool * bool)); [apply d_atts, M'|]. intros stx s' [[ds id] idref] M2. eexists. split; [reflexivity|exact M2].
  - match goal with |- context [t_atts f ?e ?s ?d ?i ?j] => destruct (atts_nil f e s d i j Sk) as [-> | ->] end; [exact I|reflexivity].
Qed.

(** ** <!ENTITY *)
Lemma d_entity st s l : fd st s -> simd (parse_entity st l) (Ok (t_entity s l)).
Proof.
  intros M. unfold parse_entity, t_entity. d_step. d_step. unfold rest_of in M. destruct (after (s2b "<!ENTITY") (skip s)); cbn [negb]; [|reflexivity].
  d_step. pose proof (clean_percent _ (proj2 M)) as NP. d_step. unfold rest_of in M. rewrite NP in *. cbv zeta. cbn [bind].
  d_ws X; [|destruct X as (st' & -> & _); reflexivity].
  destruct X as [(st' & E & M')|(-> & Sk & -> & st' & E)]; rewrite E; cbn [bind].
  2: { rewrite Sk. reflexivity. }
  clear M. rename M' into M. d_step.
  match goal with M : fd ?st (skip ?b) |- _ => remember (skip b) as w0; destruct (d_which ent_starts st w0 None M ltac:(sols)) as (st1' & E1 & M1) end.
  unfold ent_starts at 1 in E1. rewrite E1. cbn [bind]. clear M E1.
  assert (forall q, snd (t_which w0 ent_starts None) = Some (Some q) -> q = dquote \/ q = s2b "'") as Q.
  { intros q. unfold ent_starts. cbn [t_which]. destruct (after (s2b "PUBLIC") _); [discriminate|]. destruct (after (s2b "SYSTEM") _); [discriminate|].
    destruct (after dquote _); [intros Eq; inversion Eq; auto|]. destruct (after (s2b "'") _); [intros Eq; inversion Eq; auto|discriminate]. }
  destruct (t_which w0 ent_starts None) as [s2 o]. cbn [fst snd] in *. destruct o as [q|]; [|reflexivity].
  assert (exists st', match q with Some q0 => '(st3, o1) <- get_until st1' true [q0];; Ok (st3, match o1 with Some (x, _) => Some (cstr x) | None => None end)
                | None => Ok (st1', None) end = Ok (st', snd (match q with
                             | None => (s2, None)
                             | Some q => match until [q] s2 with Some (y, _, _, s) => (s, Some (cstr y)) | None => (s2, None) end
                             end)) /\ fd st' (fst (match q with
                             | None => (s2, None)
                             | Some q => match until [q] s2 with Some (y, _, _, s) => (s, Some (cstr y)) | None => (s2, None) end
                             end))) as (stz & -> & M4).
  { destruct q as [q|]; [|exists st1'; auto]. destruct (d_quoted st1' s2 q M1 (Q q eq_refl)) as (sty & E3 & M3). exists sty. rewrite E3.
    destruct (until [q] s2) as [[[[y i] a'] b']|]; auto. }
  cbn [bind]. destruct (match q with Some _ => _ | None => _ end) as [s3 content]. cbn [fst snd] in *. rename M4 into M. d_step. d_step.
  unfold rest_of in M. destruct (after (s2b ">") (skip s3)); [eexists; split; [reflexivity|exact M]|reflexivity].
Qed.

(** ** the whole *)
Lemma d_dtd : forall f st s l it, fd st s -> simd (dtd_loop f st l it) (t_dtd f s l it).
Proof.
  induction f as [|f IH]; intros st s l it M; [exact I|]. cbn [dtd_loop t_dtd].
  destruct (d_remains st s M) as (st1 & E & M1). rewrite E. cbn [bind]. clear E M. destruct s as [|c s]; cbn [negb]; [eexists; split; [reflexivity|exact M1]|].
  rewrite (clean_comments _ (proj2 M1)). destruct (d_comments _ _ M1) as (st2 & -> & M). cbn [bindo]. clear M1. set (s1 := skip (c :: s)) in *. clearbody s1.
  d_step. destruct (after (s2b "<!ELEMENT") s1).
  { apply simd_bind; [apply d_element, M|]. intros st' s' x M'. apply IH, M'. }
  d_step. unfold rest_of in M. destruct (after (s2b "<!ATTLIST") s1) as [s2|].
  { apply simd_bind; [apply d_attlist, M|]. intros st' s' x M'. apply IH, M'. }
  d_step. destruct (after (s2b "<!ENTITY") s1).
  { pose proof (d_entity _ _ l M) as X. unfold simd in X. destruct (t_entity s1 l) as [[s' l']|]; [|rewrite X; reflexivity].
    destruct X as (st' & -> & M'). cbn [bindo]. apply IH, M'. }
  destruct (it =? 3); [reflexivity|]. apply IH, M.
Qed.
Theorem file_same fuel content r : tail_ws content -> clean content -> dtd_parse fuel content = Ok r -> dtd_parse_file fuel content = Ok r.
Proof.
  intros T C. rewrite parse_text. unfold dtd_parse_file, stream_file.
  assert (M0 : fmem (Stream (FD (Some content)) (repeat NUL (Z.to_nat buffer_size + 1)) buffer_size 0 0 0) [] content).
  { exists [], (repeat NUL (Z.to_nat buffer_size + 1)). cbn [s_kind s_buf s_bufsize s_size s_idx app length].
    rewrite repeat_length. unfold buffer_size. repeat split; try lia; try assumption. left. reflexivity. }
  destruct (fmem_prebuffer _ _ _ M0) as (st & win & left & more & E & M & G & _). rewrite E. cbn [bind].
  pose proof (grown_same _ _ _ _ _ G) as S. cbn [app] in S.
  assert (D : fd st content) by (split; [split; [discriminate|exists win, left; auto]|exact C]).
  pose proof (d_dtd fuel st content load_new 0 D) as H. unfold LoadModel.parse_common.
  destruct (t_dtd fuel content load_new 0) as [[[s l]|]| |]; unfold simd in H; try discriminate.
  - destruct H as (st' & -> & _). cbn [bindo]. auto.
  - rewrite H. auto.
Qed.
(** ** as the properties say it *)
Theorem same_file fuel content r : (exists body w, content = body ++ [w] /\ In w [" "; "009"; "010"; "013"]%char) ->
  (forall u v, content <> u ++ s2b "<!--" ++ v) -> ~ In "%"%char content ->
  dtd_parse fuel content = Ok r -> dtd_parse_file fuel content = Ok r.
Proof.
  intros (b & w & E & W) C P. apply file_same.
  - right. exists b, w. split; [exact E|]. cbn in W. repeat (destruct W as [<-|W]; [reflexivity|]). destruct W.
  - split; [|exact P]. intros (u & v & Ev). exact (C u v Ev).
Qed.
