(** The loader and its version on texts do the same: declarations. *)
From Verif Require Import Prelude StrModel StrSpec StrProofs StrProofs2 StrProofs3 TreeModel StreamModel StreamProofs ParseModel ParseProofs
  DtdModel DtdDocModel LoadModel LoadProofs LoadProofs2.
Open Scope Z_scope.
Local Arguments Z.of_nat : simpl never.
Local Arguments Z.to_nat : simpl never.
Local Arguments Z.add : simpl never.
Local Arguments Z.sub : simpl never.
Local Arguments Z.eqb : simpl never.
Local Arguments Z.ltb : simpl never.
Local Arguments Z.leb : simpl never.

Lemma pieces_nul seps : forall s l, pieces seps s l -> nul_free s -> Forall nul_free l.
Proof.
  induction 1 as [|s p r l C P IH|c s x l C P IH]; intros N.
  - repeat constructor. apply nul_free_nil.
  - assert (nul_free r) as Nr.
    { clear P IH. induction seps as [|q seps IH]; [discriminate|]. cbn [cut_at] in C. destruct q as [|a q]; [auto|]. destruct (after (a :: q) s) as [t|] eqn:E; [|auto].
      inversion C; subst. clear -E N. remember (a :: q) as pp. clear Heqpp. revert s E N. induction pp as [|y pp IH]; intros s E N; [inversion E; subst; exact N|].
      destruct s as [|z s]; [discriminate|]. cbn in E. destruct (Ascii.eqb y z); [|discriminate]. apply (IH s E). intros F. apply N. right. exact F. }
    constructor; [apply nul_free_nil|auto].
  - assert (nul_free s) as Ns by (intros F; apply N; right; exact F). specialize (IH Ns). inversion IH; subst. constructor; [|assumption].
    intros [F|F]; [apply N; left; exact F|contradiction].
Qed.
Lemma trim_all_ok : forall l, Forall nul_free l -> exists l', trim_all l = Ok l' /\ Forall2 trimmed l l'.
Proof.
  induction l as [|x l IH]; intros F; [exists []; auto|]. inversion F; subst. destruct (IH H2) as (l' & E & F'). cbn [trim_all].
  destruct (trim_ok (cs x) x) as (b & t & Eb & T & [Ht [r Hb]] & _); [split; [assumption|exists []; reflexivity]|].
  rewrite Eb. cbn [bind]. rewrite E. cbn [bind]. eexists. split; [reflexivity|]. constructor; [|exact F']. rewrite Hb.
  replace (cstr (t ++ NUL :: r)) with t; [exact T|]. clear -Ht. induction t as [|c t IH]; [reflexivity|]. cbn [app cstr].
  destruct (Ascii.eqb_spec c NUL) as [->|N]; [destruct Ht; left; reflexivity|]. rewrite <- IH; [reflexivity|]. intros X; apply Ht; right; exact X.
Qed.
Lemma enum_ok x : nul_free x -> x <> [] -> exists l l', pieces [s2b "|"] x l /\ Forall2 trimmed l l' /\ enum_values x = Ok l'.
Proof.
  intros N NE. destruct (pieces_exist [s2b "|"] x) as [l P]. destruct (trim_all_ok l (pieces_nul _ _ _ P N)) as (l' & E & F).
  exists l, l'. split; [exact P|]. split; [exact F|]. unfold enum_values.
  pose proof (split_ok (cs x) x [s2b "|"] l) as SP. cbn [map] in SP.
  assert ((a <- stream_split (cs x) [cs (s2b "|")] ;; strv a) = Ok l) as E2.
  { apply SP; [split; [exact N|exists []; reflexivity]|exact NE|repeat constructor; nf|exact P]. }
  destruct (stream_split (cs x) [cs (s2b "|")]) as [a| |]; cbn [bind] in E2 |- *; try discriminate. rewrite E2. cbn [bind]. exact E.
Qed.
Lemma enum_total x : nul_free x -> exists l, enum_values x = Ok l.
Proof. intros N. destruct x; [exists []; reflexivity|]. destruct (enum_ok (a :: x) N) as (l & l' & _ & _ & E); [discriminate|eauto]. Qed.

(** ** <!ELEMENT *)
Lemma element_ok st s l : rest st s -> simr (parse_element st l) (t_element s l).
Proof.
  intros M. unfold parse_element, t_element. r_step. r_step. r_after (s2b "<!ELEMENT") (skip s); cbn [negb]; [|reflexivity].
  r_step. r_step; [|reflexivity]. cbn [fst snd]. destruct ((z =? 0) || (z =? 3)); [reflexivity|]. r_step.
  match goal with M : rest ?st (skip ?s) |- context [stream_peek ?st _] => remember (skip s) as s1 end.
  r_step. apply (simr_bind (A := el_type * option part)).
  - unfold t_content. destruct (after (s2b "EMPTY") s1) eqn:E1.
    + eexists. split; [reflexivity|]. unfold rest_of in A. rewrite E1 in A. apply A. discriminate.
    + r_step. destruct (after (s2b "ANY") s1) eqn:E2.
      * eexists. split; [reflexivity|]. unfold rest_of in A0. rewrite E2 in A0. apply A0. discriminate.
      * apply (simr_bind (A := el_type * part)); [apply read_spec_ok; assumption|]. intros st' s' [ty p] M'. eexists. split; [reflexivity|assumption].
  - clear. intros st s [ty p] M. destruct (existsb _ _); [reflexivity|]. r_step. r_step. destruct (_ =? 0); [reflexivity|].
    eexists. split; [reflexivity|assumption].
Qed.

(** ** references to parameter entities *)
Lemma push_ok st s v : rest st s -> s_prev st = 0 -> exists st', stream_push st v = Ok st' /\ rest st' (v ++ s).
Proof.
  intros [(pre & post & W & B & P & I & Z) K] Hp. unfold stream_push. rewrite B, mem_sub_app by lia. cbn [bind].
  replace (s_size st - s_idx st) with (Z.of_nat (length s)) by lia.
  destruct (Z.ltb_spec (s_size st) (Z.of_nat (length s) + Z.of_nat (length v))) as [L|L]; cbn [bind].
  - eexists. split; [reflexivity|]. split; [|exact K]. exists [], [NUL]. unfold stream_accept. cbn [set_pos s_kind s_buf s_idx s_size s_prev app length].
    rewrite Hp. repeat split; try discriminate; try lia; try (apply whole_mem, K). rewrite app_assoc. reflexivity. rewrite app_length. lia.
  - unfold memcpy_to. change (0 <? 0) with false. cbn [orb].
    destruct (Z.ltb_spec (Z.of_nat (length (pre ++ s ++ post))) (0 + Z.of_nat (length (v ++ s)))) as [F|F]; [rewrite !app_length in F; lia|].
    cbn [bind]. eexists. split; [reflexivity|]. split; [|exact K]. change (Z.to_nat 0) with 0%nat. cbn [firstn app Nat.add].
    exists [], (skipn (length (v ++ s)) (pre ++ s ++ post)). unfold stream_accept. cbn [set_pos s_kind s_buf s_idx s_size s_prev app length].
    rewrite Hp. repeat split; try lia; try (apply whole_mem, K).
    + intros E. apply (f_equal (@length _)) in E. rewrite skipn_length, !app_length in E. destruct post; [contradiction|]. simpl in E. lia.
    + rewrite app_length. lia.
Qed.
Lemma after_split c s r : after c s = Some r -> s = c ++ r.
Proof.
  revert s. induction c as [|x c IH]; intros s H; [inversion H; reflexivity|]. destruct s as [|y s]; [discriminate|]. cbn in H.
  destruct (Ascii.eqb_spec x y) as [->|]; [|discriminate]. rewrite (IH s H). reflexivity.
Qed.
Lemma until_prev : forall f st chunks acc ref i r ag st' o, until_loop f st chunks acc ref i r ag = Ok (st', o) -> s_kind st = MEM ->
  o <> None -> s_prev st' = 0.
Proof.
  induction f as [|f IH]; intros st chunks acc ref i r ag st' o H K N; [discriminate|]. cbn [until_loop] in H.
  assert (R : forall i n it, until_result st acc ref i n it = Ok (st', o) -> s_prev st' = 0).
  { intros j n it E. unfold until_result in E. apply bind_ok in E as (t & _ & E). apply bind_ok in E as (b & _ & E). inversion E. reflexivity. }
  apply bind_ok in H as ([[[st0 go] i0] r0] & E0 & H). assert (st0 = st) as ->.
  { destruct ag; [inversion E0; reflexivity|]. destruct (r - 1 <? 0); [rewrite K in E0|]; inversion E0; reflexivity. }
  clear E0. destruct go; [|inversion H; subst; contradiction].
  apply bind_ok in H as ([[it n]|] & _ & H).
  - destruct (_ && _); [|eapply R; exact H]. rewrite prebuffer_mem in H by assumption. cbn [bind] in H. eapply R; exact H.
  - eapply IH; eassumption.
Qed.
Lemma rest_accept st s : rest st s -> s_prev st = 0 -> rest (stream_accept st) s.
Proof.
  intros [(pre & post & W & B & P & I & Z) K] Hp. split; [|exact K]. exists pre, post. unfold stream_accept. cbn [set_pos s_kind s_buf s_idx s_size].
  rewrite Hp, Z.add_0_r. auto.
Qed.
Lemma expand_ok st s ents : rest st s ->
  match t_expand s ents with Some s' => exists st', expand st ents = Ok (Some st') /\ rest st' s' | None => expand st ents = Ok None end.
Proof.
  intros M. unfold expand, t_expand. destruct (r_inspect st s (s2b "%") M) as (st1 & E & M1 & S1); [nf|discriminate|].
  rewrite E. cbn [bind]. rewrite insp_pos. unfold rest_of in M1. destruct (after (s2b "%") s) as [r|] eqn:A; cbn [negb]; [|eauto].
  pose proof (r_until st1 r true [s2b ";"] M1 ltac:(gc)) as U. pose proof (until_split [s2b ";"] ltac:(gc) r) as US.
  destruct (until [s2b ";"] r) as [[[[x i] a] b]|].
  - destruct U as (st2 & E2 & M2 & S2). rewrite E2. cbn [bind]. destruct (entity_value ents (cstr x) EParameter) as [v|].
    + assert (s_prev st2 = 0) as Hp by (eapply until_prev; [exact E2|apply M1|discriminate]).
      destruct (push_ok (stream_accept st2) b (v ++ s2b " ") (rest_accept _ _ M2 Hp) eq_refl) as (st4 & E4 & M4).
      exists st4. rewrite E4. cbn [bind]. split; [reflexivity|]. rewrite app_assoc. exact M4.
    + exists (stream_move st2 (s_idx st)). split; [reflexivity|]. destruct M as [M K]. destruct M2 as [M2 K2].
      destruct S1 as (A1 & A2 & A3). destruct S2 as (B1 & B2 & B3).
      split; [|exact K2]. destruct (US _ _ _ _ eq_refl) as (m & -> & -> & _). apply after_split in A.
      eapply (mem_move st s st2 b (s2b "%" ++ x ++ m)); try assumption; try congruence. rewrite A, <- !app_assoc. reflexivity.
  - destruct U as (st2 & E2 & _). rewrite E2. reflexivity.
Qed.

(** ** <!ATTLIST *)
Lemma att_types_good : Forall good_chunk (map fst att_types).
Proof. gc. Qed.
Lemma att_type_ok st s : rest st s -> simr (att_type st) (t_att_type s).
Proof.
  intros M. unfold att_type, t_att_type. destruct (which_ok att_types st s None M att_types_good) as (st1 & E & M1). rewrite E. cbn [bind]. clear E M.
  destruct (t_which s att_types None) as [s1 o]. cbn [fst snd] in *. destruct o as [ty|]; [|reflexivity].
  assert (forall ty, simr (Ok (Some (st1, ty))) (Ok (Some (s1, ty : at_type)))) as G by (intros; eexists; split; [reflexivity|exact M1]).
  destruct ty; try apply G. rename M1 into M. r_step; [|reflexivity]. destruct (enum_total (cstr b) (cstr_nul_free b)) as (l & ->). cbn [bind].
  eexists. split; [reflexivity|exact M].
Qed.
Lemma default_ok st s : rest st s -> simr (att_default st) (Ok (t_default s)).
Proof.
  intros M. unfold att_default, t_default. r_which. destruct (t_which s _ None) as [s1 o]. cbn [fst snd] in *.
  destruct o as [d|]; [eexists; split; [reflexivity|exact M]|]. r_step.
  assert (forall st s d, rest st s -> simr ('(st0, v) <- stream_peek st dquote ;; '(st1, v0) <- (if 0 <? v then Ok (st0, v) else stream_peek st0 (s2b "'")) ;;
    if 0 <? v0 then Ok (Some (st1, d)) else Ok None)
    (Ok match after dquote s with Some _ => Some (s, d) | None => match after (s2b "'") s with Some _ => Some (s, d : at_default) | None => None end end)) as G.
  { clear. intros st s d M. r_step. destruct (after dquote s) eqn:E.
    - cbn [bind]. rewrite insp_pos, E. eexists; split; [reflexivity|exact M].
    - r_step. destruct (after (s2b "'") s); [eexists; split; [reflexivity|exact M]|reflexivity]. }
  unfold rest_of in M. destruct (after (s2b "#FIXED") s1).
  - r_step. apply G, M.
  - cbn [bind]. apply G, M.
Qed.
Lemma quoted_ok st s q : rest st s -> q = dquote \/ q = s2b "'" ->
  exists st', ('(st, o) <- get_until st true [q] ;; Ok (st, match o with Some (x, _) => Some (cstr x) | None => None end)) =
    Ok (st', match until [q] s with Some (x, _, _, s) => Some (cstr x) | None => None end) /\
    rest st' match until [q] s with Some (x, _, _, s) => s | None => s end.
Proof. intros M [-> | ->]; r_step; eexists; (split; [reflexivity|exact M]). Qed.
Lemma att_value_ok st s : rest st s -> exists st', att_value st = Ok (st', snd (t_value s)) /\ rest st' (fst (t_value s)).
Proof.
  intros M. unfold att_value, t_value. destruct (which_ok [(dquote, Some dquote); (s2b "'", Some (s2b "'"))] st s None M ltac:(gc)) as (st1 & -> & M1).
  cbn [bind]. assert (forall q, snd (t_which s [(dquote, Some dquote); (s2b "'", Some (s2b "'"))] None) = Some q -> q = dquote \/ q = s2b "'") as Q.
  { intros q. cbn [t_which]. destruct (after dquote s); [intros E; inversion E; auto|]. destruct (after (s2b "'") s); [intros E; inversion E; auto|discriminate]. }
  destruct (t_which s _ None) as [s1 [q|]]; cbn [fst snd] in *; [|eauto].
  destruct (quoted_ok st1 s1 q M1 (Q q eq_refl)) as (st2 & E & M2). rewrite E. exists st2. destruct (until [q] s1) as [[[[x i] a] b]|]; auto.
Qed.
Lemma att_loop_S fuel ents st decls id idref : att_loop (S fuel) ents st decls id idref =
  (st <- consume_spaces st ;;
   '(st, v) <- stream_inspect st (s2b ">") ;;
   if 0 <? v then Ok (Some (st, (decls, id, idref)))
   else
     '(st, o) <- get_until st false [s2b " "] ;;
     match o with
     | None => Ok None
     | Some (name, _) =>
       st <- consume_spaces st ;;
       ' st <-! expand st ents ;;
       '(st, ty) <-! att_type st ;;
       st <- consume_spaces st ;;
       '(st, df) <-! att_default st ;;
       if bad_id decls (cstr name) ty df then Ok None
       else
         st <- consume_spaces st ;;
         '(st, value) <- att_value st ;;
         if bad_enum ty value then Ok None
         else att_loop fuel ents st (decls ++ [AtDecl (cstr name) ty df value]) (flag_id id ty) (idref || is_idrefs ty)
     end).
Proof. reflexivity. Qed.
Lemma atts_ok ents : forall f st s decls id idref, rest st s -> simr (att_loop f ents st decls id idref) (t_atts f ents s decls id idref).
Proof.
  induction f as [|f IH]; intros st s decls id idref M; [reflexivity|]. rewrite att_loop_S. cbn [t_atts]. r_step. r_step.
  r_after (s2b ">") (skip s); [eexists; split; [reflexivity|exact M]|]. r_step; [|reflexivity]. r_step.
  match goal with M : rest ?st ?s |- context [expand ?st ents] => pose proof (expand_ok st s ents M) as X end.
  destruct (t_expand _ ents) as [s1|]; [|rewrite X; reflexivity]. destruct X as (st4 & -> & M4). cbn [bindo].
  apply simr_bind; [apply att_type_ok, M4|]. clear M st st0 st1 st2 st3 st4 M4. intros st s2 ty M. r_step.
  match goal with M : rest ?st ?s |- context [att_default ?st] => pose proof (default_ok st s M) as X end.
  destruct (t_default _) as [[s3 df]|]; unfold simr in X; [|rewrite X; reflexivity]. destruct X as (st5 & -> & M5). cbn [bindo].
  destruct (bad_id _ _ _ _); [reflexivity|]. clear M. rename M5 into M. r_step.
  match goal with M : rest ?st ?s |- context [att_value ?st] => destruct (att_value_ok st s M) as (st6 & -> & M6) end. cbn [bind].
  destruct (t_value _) as [s4 value]. cbn [fst snd] in *. destruct (bad_enum _ _); [reflexivity|]. apply IH, M6.
Qed.
Lemma attlist_ok f st s l : rest st s -> simr (parse_attlist f st l) (t_attlist f s l).
Proof.
  intros M. unfold parse_attlist, t_attlist. r_step. r_step; [|reflexivity]. cbv zeta.
  apply (simr_bind (A := list at_decl * bool * bool)); [apply atts_ok, M|]. intros st' s' [[ds id] idref] M'. eexists. split; [reflexivity|exact M'].
Qed.

(** ** <!ENTITY *)
Lemma entity_ok st s l : rest st s -> simr (parse_entity st l) (Ok (t_entity s l)).
Proof.
  intros M. unfold parse_entity, t_entity. r_step. r_step. r_after (s2b "<!ENTITY") (skip s); cbn [negb]; [|reflexivity].
  r_step. r_step. cbv zeta.
  match goal with |- simr _ (Ok (let '(s0, ty0) := match after _ ?x with _ => _ end in @?k s0 ty0)) => set (K := k); remember x as s1 end.
  assert (forall st s ty, rest st s -> simr ('(st0, o) <- get_until st false [s2b " "];; match o with
      | Some (name, _) =>
          st1 <- consume_spaces st0;;
          '(st2, o0) <- which st1 ent_starts None;;
          match o0 with
          | Some q =>
              '(st3, content) <- match q with
                | Some q0 => '(st3, o1) <- get_until st2 true [q0];; Ok (st3, match o1 with Some (x, _) => Some (cstr x) | None => None end)
                | None => Ok (st2, None) end;;
              st4 <- consume_spaces st3;;
              '(st5, v0) <- stream_inspect st4 (s2b ">");;
              (if 0 <? v0 then Ok (Some (st5, Load (l_elements l) (l_attrs l) (l_entities l ++ [Entity (cstr name) ty content]) (l_id l) (l_idref l))) else Ok None)
          | None => Ok None
          end
      | None => Ok None
      end) (Ok (K s ty))) as G.
  { clear. intros st s ty M. subst K. cbv beta. r_step; [|reflexivity]. r_step.
    match goal with M : rest ?st ?s |- _ => destruct (which_ok ent_starts st s None M ltac:(gc)) as (st1' & -> & M1) end. cbn [bind]. clear M.
    assert (forall q, snd (t_which (skip b0) ent_starts None) = Some (Some q) -> q = dquote \/ q = s2b "'") as Q.
    { intros q. unfold ent_starts. cbn [t_which]. destruct (after (s2b "PUBLIC") _); [discriminate|]. destruct (after (s2b "SYSTEM") _); [discriminate|].
      destruct (after dquote _); [intros E; inversion E; auto|]. destruct (after (s2b "'") _); [intros E; inversion E; auto|discriminate]. }
    destruct (t_which (skip b0) ent_starts None) as [s2 o]. cbn [fst snd] in *. destruct o as [q|]; [|reflexivity].
    assert (exists st', match q with Some q0 => '(st3, o1) <- get_until st1' true [q0];; Ok (st3, match o1 with Some (x, _) => Some (cstr x) | None => None end)
                | None => Ok (st1', None) end = Ok (st', snd (match q with
                             | None => (s2, None)
                             | Some q => match until [q] s2 with Some (y, _, _, s) => (s, Some (cstr y)) | None => (s2, None) end
                             end)) /\ rest st' (fst (match q with
                             | None => (s2, None)
                             | Some q => match until [q] s2 with Some (y, _, _, s) => (s, Some (cstr y)) | None => (s2, None) end
                             end))) as (st4 & -> & M4).
    { destruct q as [q|]; [|exists st1'; auto]. destruct (quoted_ok st1' s2 q M1 (Q q eq_refl)) as (st3 & E & M3). exists st3. rewrite E.
      destruct (until [q] s2) as [[[[y i] a'] b']|]; auto. }
    cbn [bind]. destruct (match q with Some _ => _ | None => _ end) as [s3 content]. cbn [fst snd] in *. rename M4 into M. r_step. r_step.
    r_after (s2b ">") (skip s3); [eexists; split; [reflexivity|exact M]|reflexivity]. }
  unfold rest_of in M. destruct (after (s2b "%") s1) as [s2|].
  - r_step. apply (G _ _ EParameter M).
  - cbn [bind]. apply (G _ _ EGeneral M).
Qed.

(** ** the whole *)
Lemma dtd_ok : forall f st s l it, rest st s -> simr (dtd_loop f st l it) (t_dtd f s l it).
Proof.
  induction f as [|f IH]; intros st s l it M; [reflexivity|]. cbn [dtd_loop t_dtd].
  destruct (r_remains st s M) as (st1 & E & M1). rewrite E. cbn [bind]. clear E M. destruct s as [|c s]; cbn [negb]; [eexists; split; [reflexivity|exact M1]|].
  pose proof (r_comments st1 (c :: s) pdoc_new eq_refl M1) as X. clear M1. destruct (a_comments (c :: s) pdoc_new) as [[s1 d]|]; unfold simr in X; [|rewrite X; reflexivity].
  destruct X as (st2 & -> & M). cbn [bindo]. r_step. destruct (after (s2b "<!ELEMENT") s1).
  { apply simr_bind; [apply element_ok, M|]. intros st' s' x M'. apply IH, M'. }
  r_step. unfold rest_of in M. destruct (after (s2b "<!ATTLIST") s1) as [s2|].
  { apply simr_bind; [apply attlist_ok, M|]. intros st' s' x M'. apply IH, M'. }
  r_step. destruct (after (s2b "<!ENTITY") s1).
  { pose proof (entity_ok _ _ l M) as X. unfold simr in X. destruct (t_entity s1 l) as [[s' l']|]; [|rewrite X; reflexivity].
    destruct X as (st' & -> & M'). cbn [bindo]. apply IH, M'. }
  destruct (it =? 3); [reflexivity|]. apply IH, M.
Qed.
