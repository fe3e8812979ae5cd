(** The parser on files of any size, compared with the parser on texts. *)
From Verif Require Import Prelude StrModel StrSpec StrProofs EscProofs StrProofs2 StrProofs3 AttrModel AttrSpec AttrProofs
  TreeModel StreamModel StreamProofs ParseModel ParseProofs ParseProofs2 FileProofs2.
Open Scope Z_scope.
Local Arguments Z.of_nat : simpl never.
Local Arguments Z.to_nat : simpl never.
Local Arguments Z.add : simpl never.
Local Arguments Z.sub : simpl never.
Local Arguments Z.eqb : simpl never.
Local Arguments Z.ltb : simpl never.
Local Arguments Z.leb : simpl never.

Ltac sol := split; [nf|split; [discriminate|split; [reflexivity|cbn; lia]]].

Lemma solid_good c : solid c -> good_chunk c.
Proof. intros (A & B & _). split; assumption. Qed.
Lemma solid_last c a x : solid c -> c = a ++ [x] -> is_ws x = false.
Proof.
  intros (_ & _ & W & _) ->. rewrite forallb_app in W. apply andb_true_iff in W. destruct W as [_ W]. simpl in W.
  rewrite andb_true_r in W. apply negb_true_iff, W.
Qed.
Lemma solid_not_ws c : solid c -> ws_chunk c = false.
Proof.
  intros (_ & N & W & _). unfold ws_chunk. destruct (bytes_eqb c (s2b " ")) eqn:E; [|reflexivity].
  apply bytes_eqb_eq in E. subst c. discriminate.
Qed.
Lemma hit_in chunks s : forall it i n, hit chunks s it = Some (i, n) -> exists c r, In c chunks /\ ws_chunk c = false /\ n = length c /\ s = c ++ r.
Proof.
  induction chunks as [|c l IH]; intros it i n H; [discriminate|]. cbn [hit] in H. destruct (ws_chunk c) eqn:W.
  - destruct (IH _ _ _ H) as (c' & r & A & B). exists c', r. split; [right; exact A|exact B].
  - destruct (after c s) as [r|] eqn:A.
    + inversion H; subst. apply after_Some in A. exists c, r. repeat split; auto. left. reflexivity.
    + destruct (IH _ _ _ H) as (c' & r & A' & B). exists c', r. split; [right; exact A'|exact B].
Qed.
Lemma app_same_len {A} (a b c d : list A) : a ++ b = c ++ d -> length a = length c -> a = c /\ b = d.
Proof.
  revert c. induction a as [|x a IH]; intros [|y c] E L; try discriminate; [auto|]. simpl in *. inversion E; subst.
  destruct (IH c H1 ltac:(lia)) as [-> ->]. auto.
Qed.
(** the text ends with white space, so a terminator without white space does not end it *)
Lemma stop_solid chunks s m b it : tail_ws s -> s = m ++ b -> m <> [] -> Forall solid chunks -> hit chunks s 0 = Some (it, length m) -> b <> [].
Proof.
  intros T E N S H ->. apply hit_in in H. destruct H as (c & r & Ic & _ & L & Es). rewrite app_nil_r in E. subst m.
  assert (r = []) as ->.
  { apply (f_equal (@length _)) in Es. rewrite app_length in Es. destruct r; [reflexivity|]. simpl in Es. lia. }
  rewrite app_nil_r in Es. subst c. rewrite Forall_forall in S. specialize (S _ Ic).
  destruct T as [->|(a & x & -> & W)]; [contradiction|]. rewrite (solid_last _ a x S eq_refl) in W. discriminate.
Qed.
Lemma until_rest chunks s t it a b : Forall solid chunks -> tail_ws s -> until chunks s = Some (t, it, a, b) -> b <> [].
Proof.
  intros S T U. assert (G : Forall good_chunk chunks) by (eapply Forall_impl; [|exact S]; apply solid_good).
  destruct (until_split _ G _ _ _ _ _ U) as (m & Es & Ea & Hm & St). rewrite Es in T. apply tail_ws_suffix in T.
  unfold stop_at in St.
  replace (existsb ws_chunk chunks) with false in St.
  2: { symmetry. clear - S. induction S as [|c l H S IH]; [reflexivity|]. cbn. rewrite (solid_not_ws _ H). exact IH. }
  cbn [andb] in St. apply (stop_solid chunks a m b it T Ea Hm S St).
Qed.

Lemma f_until b0 st s acc chunks : fm b0 st s -> Forall solid chunks -> short chunks ->
  match until chunks s with
  | None => exists st', get_until st acc chunks = Ok (st', None) /\ fm b0 st' s
  | Some (t, it, a, b) => exists st', get_until st acc chunks = Ok (st', Some (t, it)) /\ fm b0 st' (if acc then b else a)
  end.
Proof.
  intros F S Sh. assert (G : Forall good_chunk chunks) by (eapply Forall_impl; [|exact S]; apply solid_good).
  pose proof (f_get_until b0 st s acc chunks F G Sh) as H. destruct (until chunks s) as [[[[t it] a] b]|] eqn:U; [|exact H].
  destruct H as [H|[H _]]; [exact H|]. destruct (until_rest _ _ _ _ _ _ S (fm_tail _ _ _ F) U H).
Qed.
Lemma f_until_ref b0 st s chunks : fm b0 st s -> Forall solid chunks -> short chunks ->
  match until chunks s with
  | None => exists st', get_until_ref st true chunks = Ok (st', None) /\ fm b0 st' s
  | Some (t, it, a, b) => exists st', get_until_ref st true chunks = Ok (st', match t with [] => None | _ => Some (t, it) end) /\ fm b0 st' b
  end.
Proof.
  intros F S Sh. assert (G : Forall good_chunk chunks) by (eapply Forall_impl; [|exact S]; apply solid_good).
  pose proof (f_get_until_ref b0 st s chunks F G Sh) as H. destruct (until chunks s) as [[[[t it] a] b]|] eqn:U; [|exact H].
  destruct H as [H|[H _]]; [exact H|]. destruct (until_rest _ _ _ _ _ _ S (fm_tail _ _ _ F) U H).
Qed.

Ltac one := constructor; [sol|constructor].
Ltac two := constructor; [sol|constructor; [sol|constructor]].
Ltac sh := repeat constructor.

(** ** what a bare text does not start with *)
Lemma bare_none s c : bare s -> In c [s2b "<!--"; s2b "<![CDATA["; s2b "<?"] -> after c s = None.
Proof.
  intros (A & B & C & _) H. destruct (after c s) as [r|] eqn:E; [|reflexivity]. apply after_Some in E. exfalso. subst s.
  assert (occurs c (c ++ r)) by (exists [], r; reflexivity).
  destruct H as [<-|[<-|[<-|[]]]]; auto.
Qed.
Lemma bare_skip s : bare s -> bare (skip s).
Proof. intros B. destruct (skip_split s) as (w & E & _). rewrite E in B. apply bare_suffix in B. exact B. Qed.
Lemma bare_comments s d : bare s -> a_comments s d = Some (skip s, d).
Proof.
  intros B. rewrite a_comments_eq. unfold a_comment.
  rewrite (bare_none _ (s2b "<!--") (bare_skip _ B)) by (cbn; auto).
  rewrite skip_skip, (bare_none _ (s2b "<?") (bare_skip _ B)) by (cbn; auto). destruct (p_header d); reflexivity.
Qed.
Lemma f_comments st s d : fm true st s -> exists st', consume_comments st d = Ok (Some (st', d)) /\ fm true st' (skip s).
Proof.
  intros F. pose proof (bare_skip _ (fm_bare _ _ _ F eq_refl)) as B. unfold consume_comments.
  pose proof (fm_turns _ _ _ F) as L. destruct (turns st) as [|f]; [lia|]. cbn [comments_loop].
  destruct (f_spaces _ _ _ F) as (st1 & E1 & F1). rewrite E1. cbn [bind].
  destruct (f_inspect _ _ _ (s2b "<!--") F1 ltac:(sol)) as (st2 & v2 & E2 & V2 & _ & F2). rewrite E2. cbn [bind].
  unfold rest_of in F2. rewrite (bare_none _ (s2b "<!--") B) in V2, F2 by (cbn; auto). rewrite V2. cbn [bindo].
  destruct (f_spaces _ _ _ F2) as (st3 & E3 & F3). rewrite E3. cbn [bind]. rewrite skip_skip in F3.
  destruct (p_header d).
  - destruct (f_peek _ _ _ (s2b "<?") F3 ltac:(sol)) as (st4 & v4 & E4 & V4 & F4 & _). rewrite E4. cbn [bind].
    rewrite (bare_none _ (s2b "<?") B) in V4 by (cbn; auto). rewrite V4. cbn [bindo].
    destruct (f_spaces _ _ _ F4) as (st5 & E5 & F5). rewrite skip_skip in F5. rewrite E5. exists st5. auto.
  - cbn [bind]. change (0 <? 0) with false. cbn [bindo].
    destruct (f_spaces _ _ _ F3) as (st5 & E5 & F5). rewrite skip_skip in F5. rewrite E5. exists st5. auto.
Qed.

(** ** start tags *)
Definition fsim {A} (r : res (option (stream * A))) (o : option (bytes * A)) : Prop :=
  match o with None => r = Ok None | Some (s, x) => exists st, r = Ok (Some (st, x)) /\ fm true st s end.
Definition fsim2 {A B} (r : res (option (stream * A * B))) (o : option (bytes * A * B)) : Prop :=
  match o with None => r = Ok None | Some (s, x, y) => exists st, r = Ok (Some (st, x, y)) /\ fm true st s end.
Definition fsim3 {A B C} (r : res (option (stream * A * B * C))) (o : option (bytes * A * B * C)) : Prop :=
  match o with None => r = Ok None | Some (s, x, y, z) => exists st, r = Ok (Some (st, x, y, z)) /\ fm true st s end.

Lemma solid_quote q : q = "034"%char \/ q = "039"%char -> Forall solid [[q]] /\ short [[q]].
Proof. intros [-> | ->]; split; [one|sh|one|sh]. Qed.
Lemma f_quote st s : fm true st s ->
  fsim ('(st, v) <- stream_inspect st ["034"%char] ;;
       (if 0 <? v then Ok (Some (st, "034"%char))
               else
                 '(st, v) <- stream_inspect st ["039"%char] ;;
                 if 0 <? v then Ok (Some (st, "039"%char)) else Ok None))
      (match a_quote s with Some (q, s) => Some (s, q) | None => None end).
Proof.
  intros M. destruct (f_inspect _ st s ["034"%char] M ltac:(sol)) as (st1 & v1 & E1 & V1 & _ & M1).
  rewrite E1. cbn [bind]. rewrite V1. unfold a_quote, rest_of in *. destruct (after ["034"%char] s) as [x|].
  { exists st1. auto. }
  destruct (f_inspect _ st1 s ["039"%char] M1 ltac:(sol)) as (st2 & v2 & E2 & V2 & _ & M2).
  rewrite E2. cbn [bind]. rewrite V2. unfold rest_of in *. destruct (after ["039"%char] s) as [x|]; [|reflexivity].
  exists st2. auto.
Qed.
Lemma f_value st s q : fm true st s -> q = "034"%char \/ q = "039"%char ->
  exists st' o, get_until st true [[q]] = Ok (st', o) /\ fm true st' (snd (a_value q s)) /\
    match o with None => None | Some (t, _) => Some (cstr t) end = fst (a_value q s).
Proof.
  intros M Q. destruct (solid_quote q Q) as [S Sh]. pose proof (f_until true st s true [[q]] M S Sh) as U. unfold a_value.
  destruct (until [[q]] s) as [[[[t it] x] y]|].
  - destruct U as (st' & U & M'). exists st'. eexists. split; [exact U|]. auto.
  - destruct U as (st' & U & M'). exists st'. eexists. split; [exact U|]. auto.
Qed.

Lemma f_attrs : forall n s st d a m f, fm true st s -> (length s <= n)%nat -> (n < f)%nat -> arep a m ->
  fsim3 (attrs_loop f st d a) (a_attrs (S (length s)) s d a).
Proof.
  induction n as [|n IH]; intros s st d a m f M L Hf R; (destruct f as [|f]; [lia|]); rewrite attrs_loop_S; cbn [a_attrs];
    (destruct (f_inspect _ st s (s2b "/>") M ltac:(sol)) as (st1 & v1 & E1 & V1 & _ & M1));
    rewrite E1; cbn [bind]; rewrite V1; unfold rest_of in M1;
    (destruct (after (s2b "/>") s) as [x|]; [exists st1; auto|]);
    (destruct (f_inspect _ st1 s (s2b ">") M1 ltac:(sol)) as (st2 & v2 & E2 & V2 & _ & M2));
    rewrite E2; cbn [bind]; rewrite V2; unfold rest_of in M2;
    (destruct (after (s2b ">") s) as [x|]; [exists st2; auto|]);
    destruct (f_spaces _ _ _ M2) as (st3 & E3 & M3); rewrite E3; cbn [bind];
    pose proof (f_until _ _ _ true [s2b "="] M3 ltac:(one) ltac:(sh)) as U; pose proof (skip_len s) as K;
    (destruct (until [s2b "="] (skip s)) as [[[[t it] x] y]|] eqn:Un; [|destruct U as (stn & U & _); rewrite U; reflexivity]);
    pose proof (until_shorter [s2b "="] (skip s) _ _ _ _ ltac:(gc) Un); [lia|].
  destruct U as (st4 & U & M4). rewrite U. cbn [bind].
  pose proof (cstr_nul_free t) as Ht. cbv zeta. destruct (cstr t) as [|k0 k] eqn:Et; [reflexivity|]. rewrite <- Et in *. clear k0 k Et.
  pose proof (f_quote _ _ M4) as Q.
  destruct (f_inspect _ st4 y ["034"%char] M4 ltac:(sol)) as (st5 & v5 & E5 & _).
  rewrite E5 in Q |- *. cbn [bind] in Q |- *.
  destruct (a_quote y) as [[q s2]|] eqn:Qe; [|cbn [fsim] in Q; rewrite Q; reflexivity].
  destruct Q as (st6 & Q & M6). rewrite Q. cbn [bindo]. clear Q E5.
  apply a_quote_shorter in Qe. destruct Qe as [L2 Qq].
  destruct (f_value st6 s2 q M6 Qq) as (st7 & o & V & M7 & Ev). rewrite V. cbn [bind]. cbv zeta. rewrite Ev.
  pose proof (value_nul_free q s2) as Hv.
  destruct (a_value q s2) as [v s3] eqn:Vq. apply a_value_len in Vq; [|exact Qq]. cbn [fst snd] in *.
  destruct (a_has_ok a m (cstr t) R Ht) as [Hh _]. rewrite Hh. cbn [bind].
  destruct (a_has a (cstr t)); [reflexivity|].
  destruct (a_set_ok a m (cstr t) v R Ht) as (b & Es & R'). rewrite Es. cbn [bind].
  rewrite preserve_ok by assumption. cbn [bind].
  destruct (a_preserve _ _ v) as [l|]; [|reflexivity].
  destruct (f_spaces _ _ _ M7) as (st8 & E8 & M8). rewrite E8. cbn [bind]. pose proof (skip_len s3).
  rewrite (a_attrs_fuel (length (skip s3)) _ (S (length (skip s3)))) by lia.
  eapply IH; [exact M8|lia|lia|exact R'].
Qed.

(** the name is followed by [>] or white space *)
Lemma name_end s t it a b : tail_ws s -> until [s2b ">"; s2b " "] s = Some (t, it, a, b) -> (it =? 1) = false ->
  a = ">"%char :: b /\ b <> [].
Proof.
  intros T U I. destruct (until_split [s2b ">"; s2b " "] ltac:(gc) _ _ _ _ _ U) as (m & Es & Ea & Hm & St).
  rewrite Es in T. apply tail_ws_suffix in T. unfold stop_at in St.
  replace (existsb ws_chunk [s2b ">"; s2b " "]) with true in St by reflexivity. cbn [andb] in St.
  destruct a as [|c a]; [discriminate|].
  destruct (is_ws c). { inversion St; subst. discriminate I. }
  cbn [hit] in St. replace (ws_chunk (s2b ">")) with false in St by reflexivity.
  replace (ws_chunk (s2b " ")) with true in St by reflexivity.
  destruct (after (s2b ">") (c :: a)) as [r|] eqn:A; [|discriminate].
  pose proof A as A'. apply after_Some in A'. rewrite A' in *. inversion St; subst it. cbn [length s2b] in *.
  destruct m as [|x [|y m]]; try discriminate. cbn in A'. inversion A'; subst. cbn in Ea. inversion Ea; subst.
  split; [reflexivity|]. intros ->. destruct T as [T|(u & y & Eu & W)]; [discriminate|].
  destruct u as [|? [|]]; inversion Eu; subst. discriminate.
Qed.

Lemma f_node st s d : fm true st s -> fsim2 (parse_node st d) (a_node s d).
Proof.
  intros M. unfold parse_node, a_node. destruct (f_comments st s d M) as (st1 & C & M1). rewrite C.
  rewrite (bare_comments s d (fm_bare _ _ _ M eq_refl)). cbn [bindo]. clear C.
  set (s1 := skip s) in *. clearbody s1. clear M.
  assert (St : exists st', ('(st, v) <- stream_inspect st1 (s2b "<") ;; (if 0 <? v then Ok (st, true) else stream_remains st)) =
    Ok (st', match (match after (s2b "<") s1 with Some s => Some s | None => match s1 with [] => None | _ => Some s1 end end)
           with Some _ => true | None => false end) /\
    fm true st' (match (match after (s2b "<") s1 with Some s => Some s | None => match s1 with [] => None | _ => Some s1 end end)
           with Some s => s | None => s1 end)).
  { destruct (f_inspect _ st1 s1 (s2b "<") M1 ltac:(sol)) as (st2 & v2 & E2 & V2 & _ & M2).
    rewrite E2. cbn [bind]. rewrite V2. unfold rest_of in M2. destruct (after (s2b "<") s1) as [x|]; [eauto|].
    destruct (f_remains _ _ _ M2) as (st3 & E3 & M3 & _). exists st3. rewrite E3. destruct s1; auto. }
  destruct St as (st2 & E2 & M2).
  destruct (f_inspect _ st1 s1 (s2b "<") M1 ltac:(sol)) as (st1' & v1 & E1 & _).
  rewrite E1 in E2 |- *. cbn [bind] in E2 |- *. rewrite E2. cbn [bind]. clear E1 E2 st1'.
  destruct (match after (s2b "<") s1 with Some s => Some s | None => _ end) as [s2|]; [|reflexivity]. cbn [negb].
  pose proof (f_get_until _ _ _ true [s2b ">"; s2b " "] M2 ltac:(gc) ltac:(sh)) as U.
  destruct (until [s2b ">"; s2b " "] s2) as [[[[t it] x] s3]|] eqn:Un; [|destruct U as (stn & U & _); rewrite U; reflexivity].
  destruct U as [(st3 & U & M3)|(-> & st3 & U)].
  2: { rewrite U. cbn [bind]. destruct (cstr t); [reflexivity|].
       destruct (it =? 1) eqn:It; [reflexivity|]. destruct (name_end _ _ _ _ _ (fm_tail _ _ _ M2) Un It) as [_ F]. contradiction. }
  rewrite U. cbn [bind]. cbv zeta.
  destruct (cstr t) as [|k0 k] eqn:Et; [reflexivity|]. rewrite <- Et. assert (Hne : cstr t <> []) by congruence. clear k0 k Et.
  destruct (it =? 1).
  - destruct (f_spaces _ _ _ M3) as (st4 & E4 & M4). rewrite E4. cbn [bind]. pose proof (fm_turns _ _ _ M4).
    pose proof (f_attrs (length (skip s3)) _ _ d no_attrs [] (turns st4) M4 ltac:(lia) ltac:(lia) arep_none) as A.
    destruct (a_attrs _ (skip s3) d no_attrs) as [[[[s5 d5] a] e]|]; [|cbn [fsim3] in A; rewrite A; reflexivity].
    destruct A as (st5 & A & M5). rewrite A. cbn [bindo]. destruct e; eexists; (split; [reflexivity|exact M5]).
  - rewrite rd_last by assumption. cbn [bind]. destruct (Ascii.eqb _ _); cbn [bindo]; eexists; (split; [reflexivity|exact M3]).
Qed.
Lemma f_close st s d : fm true st s ->
  match a_close s d with
  | None => parse_close_node st d = Ok None
  | Some s' => exists st', parse_close_node st d = Ok (Some st') /\ fm true st' s'
  end.
Proof.
  intros M. unfold parse_close_node, a_close. pose proof (f_until_ref _ st s [s2b ">"] M ltac:(one) ltac:(sh)) as U.
  destruct (until [s2b ">"] s) as [[[[t it] x] s3]|]; [|destruct U as (stn & U & _); rewrite U; reflexivity].
  destruct U as (st3 & U & M3). rewrite U. cbn [bind]. destruct t as [|c t]; [reflexivity|].
  rewrite rd_last by discriminate. cbn [bind]. cbv zeta. destruct (p_stack d) as [|n r]; [reflexivity|].
  rewrite axl_cmp_cs. cbn [bind]. destruct (bytes_eqb _ _); [|reflexivity]. eauto.
Qed.

(** ** what is read ends with [>] *)
Definition ends_in (s s' : bytes) : Prop := exists u, s = u ++ ">"%char :: s'.
Lemma ends_app a s s' : ends_in s s' -> ends_in (a ++ s) s'.
Proof. intros (u & ->). exists (a ++ u). rewrite <- app_assoc. reflexivity. Qed.
Lemma ends_skip s s' : ends_in (skip s) s' -> ends_in s s'.
Proof. intros H. destruct (skip_split s) as (w & E & _). rewrite E. apply ends_app, H. Qed.
Lemma ends_until chunks s t it a b s' : Forall good_chunk chunks -> until chunks s = Some (t, it, a, b) -> ends_in b s' -> ends_in s s'.
Proof. intros G U H. destruct (suffix_until _ _ _ _ _ _ G U) as (m & -> & ->). apply ends_app, ends_app, H. Qed.
Lemma until_gt s t it a b : until [s2b ">"] s = Some (t, it, a, b) -> ends_in s b.
Proof.
  intros U. destruct (until_split [s2b ">"] ltac:(gc) _ _ _ _ _ U) as (m & Es & Ea & Hm & St). unfold stop_at in St.
  replace (existsb ws_chunk [s2b ">"]) with false in St by reflexivity. cbn [andb] in St.
  apply hit_in in St. destruct St as (c & r & [<-|[]] & _ & L & E). rewrite Ea in E.
  apply app_same_len in E; [|exact L]. destruct E as [-> ->]. exists t. rewrite Es, Ea. reflexivity.
Qed.
Lemma ends_attrs : forall f s d a s' d' a' e, a_attrs f s d a = Some (s', d', a', e) -> ends_in s s'.
Proof.
  induction f as [|f IH]; intros s d a s' d' a' e H; [discriminate|]. cbn [a_attrs] in H.
  destruct (after (s2b "/>") s) as [x|] eqn:A1.
  { inversion H; subst. apply after_Some in A1. subst s. exists ["/"%char]. reflexivity. }
  destruct (after (s2b ">") s) as [x|] eqn:A2.
  { inversion H; subst. apply after_Some in A2. subst s. exists []. reflexivity. }
  destruct (until [s2b "="] (skip s)) as [[[[t it] x] y]|] eqn:U; [|discriminate].
  destruct (cstr t); [discriminate|]. destruct (a_quote y) as [[q s2]|] eqn:Q; [|discriminate].
  pose proof (a_quote_shorter _ _ _ Q) as [_ Qq].
  assert (Ey : y = q :: s2).
  { unfold a_quote in Q. destruct (after ["034"%char] y) as [z|] eqn:A; [inversion Q; subst; apply after_Some in A; exact A|].
    destruct (after ["039"%char] y) as [z|] eqn:A'; [inversion Q; subst; apply after_Some in A'; exact A'|discriminate]. }
  destruct (a_value q s2) as [v s3] eqn:V.
  destruct (a_has a _); [discriminate|]. destruct (a_preserve _ _ v); [|discriminate].
  apply IH, ends_skip in H. apply ends_skip. eapply ends_until; [|exact U|]; [gc|]. rewrite Ey. apply (ends_app [q]).
  unfold a_value in V. destruct (until [[q]] s2) as [[[[t3 it3] x3] y3]|] eqn:U3; inversion V; subst; [|exact H].
  eapply ends_until; [|exact U3|exact H]. apply good_quote, Qq.
Qed.
Lemma ends_node s d s' d' e : tail_ws s -> bare s -> a_node s d = Some (s', d', e) -> ends_in s s'.
Proof.
  intros T B. unfold a_node. rewrite bare_comments by exact B.
  destruct (skip_split s) as (w & Ew & _). intros H. rewrite Ew. apply ends_app. revert H.
  assert (T1 : tail_ws (skip s)) by (rewrite Ew in T; apply tail_ws_suffix in T; exact T).
  clear - T1. revert T1. generalize (skip s). intros s1 T1.
  destruct (match after (s2b "<") s1 with Some s => Some s | None => _ end) as [s2|] eqn:A; [|discriminate].
  assert (exists p, s1 = p ++ s2) as (p & Ep).
  { destruct (after (s2b "<") s1) eqn:A'; [inversion A; subst; apply after_Some in A'; eauto|].
    destruct s1; inversion A; subst; exists []; reflexivity. }
  rewrite Ep in *. apply tail_ws_suffix in T1.
  destruct (until [s2b ">"; s2b " "] s2) as [[[[t it] x] s3]|] eqn:U; [|discriminate].
  destruct (cstr t); [discriminate|]. destruct (it =? 1) eqn:It.
  - destruct (a_attrs _ (skip s3) d no_attrs) as [[[[s5 d5] a5] e5]|] eqn:At; [|discriminate].
    apply ends_attrs, ends_skip in At. intros H'. apply ends_app. eapply ends_until; [|exact U|]; [gc|].
    destruct e5; inversion H'; subst; exact At.
  - destruct (name_end _ _ _ _ _ T1 U It) as [Ex _]. destruct (suffix_until [s2b ">"; s2b " "] _ _ _ _ _ ltac:(gc) U) as (m & Es & _).
    assert (ends_in s2 s3) by (exists t; rewrite Es, Ex; reflexivity).
    intros H'. apply ends_app. destruct (Ascii.eqb _ _); inversion H'; subst; assumption.
Qed.
Lemma ends_close s d s' : a_close s d = Some s' -> ends_in s s'.
Proof.
  unfold a_close. destruct (until [s2b ">"] s) as [[[[[|c t] it] x] s3]|] eqn:U; try discriminate.
  destruct (p_stack d); [discriminate|]. destruct (bytes_eqb _ _); [|discriminate]. intros H; inversion H; subst.
  apply (until_gt _ _ _ _ _ U).
Qed.
Lemma ends_lead s s' : bare s -> ends_in s s' -> lead s'.
Proof. intros (_ & _ & _ & T) (u & E). apply (T u s' E). Qed.
Lemma lead_tag c s : c = "<"%char -> lead (c :: s).
Proof.
  intros -> w x v E N W. destruct w as [|y w]; [contradiction|]. inversion E; subst. discriminate.
Qed.

(** ** content *)
Lemma white_text st k : fm true st [] -> 0 <= k -> white_back k st -> k < s_idx st ->
  exists w, fm true (stream_move st k) w /\ forallb is_ws w = true.
Proof.
  intros (_ & win & left & E & M) K W L. symmetry in E. apply app_eq_nil in E. destruct E as [-> ->].
  destruct M as (pre & post & Kd & B & I & Z & Lb & Ls & L64 & T). clear T. cbn [app length] in *.
  exists (skipn (Z.to_nat k) pre).
  assert (Wp : forallb is_ws (skipn (Z.to_nat k) pre) = true).
  { apply forallb_forall. intros c Hc. apply In_nth_error in Hc. destruct Hc as (i & Hi).
    assert (Lt : (i < length (skipn (Z.to_nat k) pre))%nat) by (apply nth_error_Some; congruence). rewrite skipn_length in Lt.
    destruct (W (k + Z.of_nat i)) as (c' & N & Wc); [lia|].
    replace (Z.to_nat (k + Z.of_nat i)) with (Z.to_nat k + i)%nat in N by lia.
    rewrite B, nth_error_app1 in N by lia.
    rewrite <- (firstn_skipn (Z.to_nat k) pre), nth_error_app2 in N by (rewrite firstn_length; lia).
    rewrite firstn_length in N. replace (Z.to_nat k + i - Nat.min (Z.to_nat k) (length pre))%nat with i in N by lia. congruence. }
  split; [|exact Wp]. set (w := skipn (Z.to_nat k) pre) in *.
  assert (Lw : (length w + Z.to_nat k = length pre)%nat) by (unfold w; rewrite skipn_length; lia).
  assert (Ep : pre = firstn (Z.to_nat k) pre ++ w) by (unfold w; rewrite firstn_skipn; reflexivity).
  split.
  - intros _. assert (No : forall c r, is_ws c = false -> ~ occurs (c :: r) w).
    { intros c r Hc (u & v & Ew). rewrite Ew in Wp. rewrite !forallb_app in Wp. cbn [app forallb] in Wp. rewrite Hc in Wp.
      rewrite !andb_false_r in Wp. discriminate. }
    split; [apply No; reflexivity|]. split; [apply No; reflexivity|]. split; [apply No; reflexivity|].
    intros u v Ew. exfalso. apply (No ">"%char []); [reflexivity|]. exists u, v. exact Ew.
  - exists w, []. split; [symmetry; apply app_nil_r|]. exists (firstn (Z.to_nat k) pre), post.
    cbn [stream_move stream_accept set_pos s_kind s_buf s_bufsize s_size s_idx].
    rewrite firstn_length. repeat split; try assumption; try lia.
    + rewrite B, Ep at 1. rewrite <- app_assoc. reflexivity.
    + rewrite app_nil_r. destruct w as [|c w'] eqn:Ew; [left; reflexivity|right].
      destruct (@exists_last _ (c :: w') ltac:(discriminate)) as (u & y & Eu). exists u, y. split; [exact Eu|].
      rewrite Eu, forallb_app in Wp. apply andb_true_iff in Wp. destruct Wp as [_ Wp]. cbn in Wp. rewrite andb_true_r in Wp. exact Wp.
Qed.

Lemma f_content : forall n s st d f, fm true st s -> lead s -> (length s <= n)%nat -> (n < f)%nat -> p_header d = true ->
  fsim (content_loop f st d) (a_content (S (length s)) s d).
Proof.
  induction n as [|n IH]; intros s st d f M Ld L Hf Hh; (destruct f as [|f]; [lia|]); rewrite content_loop_S; cbn [a_content];
    (destruct (f_remains _ _ _ M) as (st0 & E0 & M0 & D0)); rewrite E0; cbn [bind];
    (destruct s as [|c s]; [cbn [negb]; exists st0; auto|]); [simpl in L; lia|]. cbn [negb].
  specialize (D0 ltac:(discriminate)). clear st M E0. rename st0 into st, M0 into M.
  match goal with |- context [starts (s2b "<?") ?x] => set (s1 := x) end.
  assert (L1 : (length s1 <= length (c :: s))%nat) by (unfold s1; pose proof (skip_len (c :: s)); destruct (hd _ _); lia).
  assert (N1 : after (s2b "<") s1 = None -> after (s2b "<") (c :: s) = None)
    by (unfold s1; destruct (hd _ _); [auto|apply no_lt_skip]).
  assert (S1 : exists w, c :: s = w ++ s1 /\ forallb is_ws w = true /\ (w <> [] -> match s1 with [] => True | c1 :: _ => is_ws c1 = false end)).
  { unfold s1. destruct (hd _ _); [exists []; repeat split; congruence|]. destruct (skip_split (c :: s)) as (w & E & W). exists w.
    split; [exact E|]. split; [exact W|]. intros _. apply skip_head. }
  assert (E1 : exists st1, (if hd false (p_preserve d) then Ok st else consume_spaces st) = Ok st1 /\ fm true st1 s1 /\
                (s1 = c :: s -> st1 = st) /\ white_back (s_idx st) st1).
  { unfold s1. destruct (hd _ _); [|exact D0]. exists st. split; [reflexivity|]. split; [exact M|]. split; [auto|apply white_refl]. }
  clearbody s1. clear D0. destruct E1 as (st1 & E1 & M1 & K1 & W1). cbv zeta. rewrite E1. cbn [bind]. clear E1.
  pose proof (fm_bare _ _ _ M1 eq_refl) as B1.
  unfold starts. rewrite (bare_none s1 (s2b "<?") B1), (bare_none s1 (s2b "<!--") B1), (bare_none s1 (s2b "<![CDATA[") B1) by (cbn; auto).
  cbn [orb].
  destruct (f_peek _ st1 s1 (s2b "<?") M1 ltac:(sol)) as (st2 & v2 & E2 & V2 & M2 & K2 & _).
  rewrite (bare_none s1 (s2b "<?") B1) in V2 by (cbn; auto). rewrite E2. cbn [bind]. rewrite V2.
  destruct (f_peek _ st2 s1 (s2b "<!--") M2 ltac:(sol)) as (st3 & v3 & E3 & V3 & M3 & K3 & _).
  rewrite (bare_none s1 (s2b "<!--") B1) in V3 by (cbn; auto). rewrite E3. cbn [bind]. rewrite V3. cbn [orb].
  destruct (f_peek _ st3 s1 (s2b "</") M3 ltac:(sol)) as (st5 & v5 & E5 & V5 & M5 & K5 & MA5).
  rewrite E5. cbn [bind]. rewrite V5. unfold rest_of in MA5.
  destruct (after (s2b "</") s1) as [s2|] eqn:A.
  { pose proof (after_shorter (s2b "</") _ _ ltac:(discriminate) A). specialize (MA5 ltac:(discriminate)).
    pose proof (f_close _ _ d MA5) as C.
    destruct (a_close s2 d) as [s3|] eqn:Cl; [|rewrite C; reflexivity]. pose proof (a_close_len _ _ _ Cl).
    destruct C as (st6 & C & M6). rewrite C.
    destruct (p_stack d) as [|nd [|nd' r]]; [reflexivity|exists st6; auto|].
    fold (closed nd (nd' :: r) d).
    rewrite (a_content_fuel (length s3) _ (S (length s3))) by (rewrite ?header_closed; congruence || lia).
    apply IH; [exact M6| |lia|lia|rewrite header_closed; congruence].
    apply (ends_lead s2); [exact (fm_bare _ _ _ MA5 eq_refl)|exact (ends_close _ _ _ Cl)]. }
  destruct (f_peek _ st5 s1 (s2b "<![CDATA[") M5 ltac:(sol)) as (st6 & v6 & E6 & V6 & M6 & K6 & MA6).
  rewrite (bare_none s1 (s2b "<![CDATA[") B1) in V6 by (cbn; auto). rewrite E6. cbn [bind]. rewrite V6.
  destruct (f_peek _ st6 s1 (s2b "<") M6 ltac:(sol)) as (st7 & v7 & E7 & V7 & M7 & K7 & MA7).
  rewrite E7. cbn [bind]. rewrite V7. unfold rest_of in MA7.
  destruct (after (s2b "<") s1) as [s2|] eqn:A3.
  { pose proof (after_shorter (s2b "<") _ _ ltac:(discriminate) A3). specialize (MA7 ltac:(discriminate)).
    pose proof (f_node _ _ d MA7) as C.
    destruct (a_node s2 d) as [[[s3 d3] e3]|] eqn:Cn; [|cbn [fsim2] in C; rewrite C; reflexivity].
    destruct C as (st8 & C & M8). rewrite C. cbn [bindo].
    pose proof (a_node_len _ _ _ _ _ Cn). pose proof (fm_bare _ _ _ MA7 eq_refl) as B2.
    pose proof (ends_node _ _ _ _ _ (fm_tail _ _ _ MA7) B2 Cn) as En. apply header_a_node in Cn.
    rewrite (a_content_fuel (length s3) _ (S (length s3))) by (congruence || lia).
    apply IH; [exact M8| |lia|lia|congruence]. apply (ends_lead s2); assumption. }
  pose proof (at_rest_trans _ _ _ (at_rest_trans _ _ _ (at_rest_trans _ _ _ (at_rest_trans _ _ _ K2 K3) K5) K6) K7) as KK.
  pose proof (fm_idx _ _ _ M) as I0.
  destruct S1 as (w & S1 & Ww & Wn). destruct s1 as [|c1 s1].
  - rewrite app_nil_r in S1. rewrite S1, until_white by exact Ww.
    destruct (Z.ltb_spec (s_idx st) (s_idx st7)) as [Lt|Ge].
    + destruct (white_text st7 (s_idx st) M7 I0 (white_rest _ _ _ I0 KK W1) Lt) as (w' & M8 & Ww').
      pose proof (f_until _ _ _ false [s2b "<"] M8 ltac:(one) ltac:(sh)) as U. rewrite until_white in U by exact Ww'.
      destruct U as (stn & U & _). rewrite U. reflexivity.
    + pose proof (f_until _ _ _ false [s2b "<"] M7 ltac:(one) ltac:(sh)) as U. cbn [until] in U.
      destruct U as (stn & U & _). rewrite U. reflexivity.
  - assert (w = []) as ->.
    { destruct w as [|w0 w]; [reflexivity|]. exfalso. specialize (Wn ltac:(discriminate)). cbn in Wn.
      assert (c1 = "<"%char) by (apply (Ld (w0 :: w) c1 s1 S1 ltac:(discriminate) Ww Wn)). subst c1. discriminate A3. }
    cbn [app] in S1. rewrite S1 in *. rewrite (K1 eq_refl) in KK.
    replace (s_idx st <? s_idx st7) with false by (symmetry; apply Z.ltb_ge; destruct KK as [[_ ->]| ->]; lia).
    pose proof (f_until _ _ _ false [s2b "<"] M7 ltac:(one) ltac:(sh)) as U.
    destruct (until [s2b "<"] (c1 :: s1)) as [[[[t it] x] s3]|] eqn:Un; [|destruct U as (stn & U & _); rewrite U; reflexivity].
    destruct U as (st9 & U & M9). rewrite U. cbn [bind].
    pose proof (text_progress _ _ _ _ _ _ A3 Un) as [P _].
    rewrite (a_content_fuel (length x) _ (S (length x))) by (rewrite ?header_item; congruence || lia).
    apply IH; [exact M9| |simpl length in *; lia|lia|rewrite header_item; congruence].
    destruct (until_split [s2b "<"] ltac:(gc) _ _ _ _ _ Un) as (m & _ & Ea & Hm & Sa). unfold stop_at in Sa.
    replace (existsb ws_chunk [s2b "<"]) with false in Sa by reflexivity. cbn [andb] in Sa.
    apply hit_in in Sa. destruct Sa as (ch & r & [<-|[]] & _ & _ & ->). apply lead_tag. reflexivity.
Qed.

(** ** the start of the document *)
Lemma f_several b st s c1 c2 : fm b st s -> solid c1 -> solid c2 ->
  exists st' v, stream_inspect_several st [c1; c2] = Ok (st', v) /\ (0 <? v) = (0 <? several s c1 c2) /\ fm b st' (rest2 s c1 c2) /\
    (after c1 s <> None \/ after c2 s <> None -> v =? 0 = false).
Proof.
  intros M S1 S2. unfold stream_inspect_several. cbn [inspect_several].
  destruct (f_inspect b st s c1 M S1) as (st1 & v1 & E1 & V1 & X1 & M1). rewrite E1. cbn [bind].
  unfold several, rest2, rest_of in *. destruct (after c1 s) as [r|] eqn:A1.
  - assert (v1 = 1).
    { destruct X1 as [->|[X1 _]]; [unfold insp; rewrite A1; reflexivity|]. apply after_len in A1. lia. }
    subst v1. exists st1, 1. auto.
  - destruct (f_inspect b st1 s c2 M1 S2) as (st2 & v2 & E2 & V2 & X2 & M2). unfold rest_of in *.
    assert (Hv1 : v1 = -1 \/ v1 = 0).
    { destruct X1 as [->|[_ ->]]; [|auto]. unfold insp. rewrite A1. destruct (_ <? _)%nat; auto. }
    assert (R : exists l, (if v1 =? -1 then inspect_several st1 [c2] (0 + 1) (-1) else if v1 =? 0 then inspect_several st1 [c2] (0 + 1) 0 else Ok (st1, 0 + 1)) =
       inspect_several st1 [c2] 1 l /\ (l = -1 \/ l = 0)).
    { destruct Hv1 as [->| ->]; [exists (-1)|exists 0]; auto. }
    destruct R as (l & R & Hl). cbn [inspect_several] in R. rewrite R. cbn [bind]. rewrite E2. cbn [bind].
    destruct (after c2 s) as [r|] eqn:A2.
    + assert (v2 = 1).
      { destruct X2 as [->|[X2 _]]; [unfold insp; rewrite A2; reflexivity|]. apply after_len in A2. lia. }
      subst v2. exists st2, 2. auto.
    + assert (Hv2 : v2 = -1 \/ v2 = 0).
      { destruct X2 as [->|[_ ->]]; [|auto]. unfold insp. rewrite A2. destruct (_ <? _)%nat; auto. }
      assert (Q : exists v, (if v2 =? -1 then Ok (st2, -1) else if v2 =? 0 then Ok (st2, l) else Ok (st2, 1 + 1)) = Ok (st2, v) /\ (v = -1 \/ v = 0)).
      { destruct Hv2 as [->| ->]; [exists (-1)|exists l]; auto. }
      destruct Q as (v & Q & Hv). rewrite Q. exists st2, v. split; [reflexivity|].
      split; [destruct (_ || _); destruct Hv as [->| ->]; reflexivity|]. split; [exact M2|]. intros [F|F]; congruence.
Qed.

Lemma quotes_solid : Forall solid quotes.
Proof. unfold quotes. two. Qed.
Lemma quotes_short : short quotes.
Proof. unfold quotes. sh. Qed.
Definition fsimr {A} (r : res (option (stream * A))) (o : res (option (bytes * A))) : Prop :=
  match o with
  | Ok x => fsim r x
  | UB => r = UB
  | NoFuel => False
  end.
Lemma found v s c : after c s <> None -> v = insp s c \/ (length s < length c)%nat /\ v = 0 -> v = 1 /\ insp s c = 1.
Proof.
  intros A H. unfold insp in *. destruct (after c s) as [r|] eqn:E; [|contradiction].
  destruct H as [H|[H _]]; [auto|]. apply after_len in E. lia.
Qed.
Definition versioned (s : bytes) : Prop := exists g g' V r, s = s2b "xml" ++ g ++ s2b "version=" ++ g' ++ V ++ r /\
  forallb is_ws g = true /\ forallb is_ws g' = true /\ (V = V1 \/ V = V2).
Lemma skip_over g s : forallb is_ws g = true -> (match s with [] => True | c :: _ => is_ws c = false end) -> skip (g ++ s) = s.
Proof.
  intros G H. induction g as [|c g IH]; cbn [app skip].
  - destruct s; [reflexivity|]. cbn. rewrite H. reflexivity.
  - cbn in G. apply andb_true_iff in G. destruct G as [-> G]. apply IH, G.
Qed.

Lemma f_decl st s d : fm true st s -> versioned s ->
  fsimr ('(st, v) <- stream_inspect st (s2b "xml") ;;
       if negb (0 <? v) then Ok None
       else
         st <- consume_spaces st ;;
         '(st, v) <- stream_inspect st (s2b "version=") ;;
         if v =? 0 then Ok None
         else
           st <- consume_spaces st ;;
           '(st, v) <- stream_inspect_several st
              [["034"; "1"; "."; "0"; "034"]%char; ["039"; "1"; "."; "0"; "039"]%char] ;;
           if v =? 0 then Ok None
           else
             st <- consume_spaces st ;;
             '(st, v) <- stream_inspect_several st (quoted (s2b "encoding=")) ;;
             '(st, d) <-!
               (if 0 <? v then
                  '(st, o) <- get_until st true quotes ;;
                  match o with
                  | None => Ok None
                  | Some (e, _) => Ok (Some (st, with_encoding d (Some (cstr e))))
                  end
                else Ok (Some (st, d))) ;;
             st <- consume_spaces st ;;
             '(st, v) <- stream_inspect_several st (quoted (s2b "standalone=")) ;;
             '(st, d) <-!
               (if 0 <? v then
                  '(st, o) <- get_until st true quotes ;;
                  match o with
                  | None => Ok None
                  | Some (e, _) => y <- is_yes e ;; Ok (Some (st, with_standalone d y))
                  end
                else Ok (Some (st, d))) ;;
             st <- consume_spaces st ;;
             '(st, v) <- stream_inspect st (s2b "?>") ;;
             if negb (0 <? v) then Ok None
             else consume_comments st d) (a_decl s d).
Proof.
  intros M (g & g' & V & r & Es & Hg & Hg' & HV). unfold a_decl.
  destruct (f_inspect _ st s (s2b "xml") M ltac:(sol)) as (st1 & v1 & E1 & Vx1 & _ & M1).
  rewrite E1. cbn [bind]. rewrite Vx1. unfold rest_of in M1.
  rewrite Es, after_app in M1 |- *. cbn [negb]. clear E1 Vx1. cbv zeta.
  destruct (f_spaces _ _ _ M1) as (st2 & E2 & M2). rewrite E2. cbn [bind]. clear E2.
  rewrite (skip_over g) in M2 |- * by (assumption || reflexivity).
  destruct (f_inspect _ st2 _ (s2b "version=") M2 ltac:(sol)) as (st3 & v3 & E3 & _ & X3 & M3).
  rewrite E3. cbn [bind]. clear E3. apply found in X3; [|rewrite after_app; discriminate]. destruct X3 as [-> X3]. rewrite X3.
  change (1 =? 0) with false. cbv iota. unfold rest_of in M3 |- *. rewrite after_app in M3 |- *.
  destruct (f_spaces _ _ _ M3) as (st4 & E4 & M4). rewrite E4. cbn [bind]. clear E4.
  rewrite (skip_over g') in M4 |- * by (assumption || (destruct HV as [->| ->]; reflexivity)).
  destruct (f_several _ st4 _ V1 V2 M4 ltac:(sol) ltac:(sol)) as (st5 & v5 & E5 & X5 & M5 & Z5).
  match type of E5 with ?l = _ => match goal with |- context[stream_inspect_several st4 ?c] => change (stream_inspect_several st4 c) with l end end.
  rewrite E5. cbn [bind]. clear E5.
  assert (A5 : after V1 (V ++ r) <> None \/ after V2 (V ++ r) <> None)
    by (destruct HV as [->| ->]; [left|right]; rewrite after_app; discriminate).
  rewrite (Z5 A5).
  replace (several (V ++ r) V1 V2 =? 0) with false.
  2: { symmetry. unfold several. destruct A5 as [A5|A5]; [destruct (after V1 (V ++ r)); [reflexivity|contradiction]|].
       destruct (after V1 (V ++ r)); [reflexivity|]. destruct (after V2 (V ++ r)); [reflexivity|contradiction]. }
  destruct (f_spaces _ _ _ M5) as (st6 & E6 & M6). rewrite E6. cbn [bind]. clear E6.
  match type of M6 with fm _ _ ?x => set (s6 := x) in * end. clearbody s6. clear - M6.
  destruct (f_several _ st6 s6 (Q1 (s2b "encoding=")) (Q2 (s2b "encoding=")) M6 ltac:(sol) ltac:(sol)) as (st7 & v7 & E7 & X7 & M7 & _).
  match type of E7 with ?l = _ => match goal with |- context[stream_inspect_several st6 ?c] => change (stream_inspect_several st6 c) with l end end.
  rewrite E7. cbn [bind]. clear E7. rewrite X7. clear X7 v7.
  assert (X : fsim (if 0 <? several s6 (Q1 (s2b "encoding=")) (Q2 (s2b "encoding=")) then
                  '(st, o) <- get_until st7 true quotes ;;
                  match o with
                  | None => Ok None
                  | Some (e, _) => Ok (Some (st, with_encoding d (Some (cstr e))))
                  end
                else Ok (Some (st7, d)))
     (match a_field (s2b "encoding=") s6 with None => None | Some (e, s) =>
        Some (s, match e with None => d | Some e => with_encoding d (Some (cstr e)) end) end)).
  { unfold a_field. destruct (0 <? _); [|eexists; split; [reflexivity|exact M7]].
    pose proof (f_until _ _ _ true quotes M7 quotes_solid quotes_short) as U.
    destruct (until quotes _) as [[[[t it] x] y]|]; [|destruct U as (stn & U & _); rewrite U; reflexivity].
    destruct U as (st8 & U & M8). rewrite U. cbn [bind]. eexists. split; [reflexivity|exact M8]. }
  destruct (a_field (s2b "encoding=") s6) as [[e s8]|]; [|cbn [fsim] in X; rewrite X; reflexivity].
  destruct X as (st8 & X & M8). rewrite X. cbn [bindo]. clear X M6 M7.
  match goal with |- context [match e with None => d | Some _ => _ end] =>
    set (d8 := match e with None => d | Some e => with_encoding d (Some (cstr e)) end) end. clearbody d8. clear - M8.
  destruct (f_spaces _ _ _ M8) as (st9 & E9 & M9). rewrite E9. cbn [bind]. clear E9.
  destruct (f_several _ st9 _ (Q1 (s2b "standalone=")) (Q2 (s2b "standalone=")) M9 ltac:(sol) ltac:(sol)) as (st10 & v10 & E10 & X10 & M10 & _).
  match type of E10 with ?l = _ => match goal with |- context[stream_inspect_several st9 ?c] => change (stream_inspect_several st9 c) with l end end.
  rewrite E10. cbn [bind]. clear E10. rewrite X10. clear X10.
  assert (Y : forall d9 s9 st9, fm true st9 s9 ->
    fsim (st <- consume_spaces st9 ;;
         '(st, v) <- stream_inspect st (s2b "?>") ;;
         if negb (0 <? v) then Ok None else consume_comments st d9)
      (match after (s2b "?>") (skip s9) with None => None | Some s => a_comments s d9 end)).
  { clear. intros d9 s9 st9 M9. destruct (f_spaces _ _ _ M9) as (st & E & M). rewrite E. cbn [bind].
    destruct (f_inspect _ st _ (s2b "?>") M ltac:(sol)) as (st1 & v1 & E1 & X1 & _ & M1).
    rewrite E1. cbn [bind]. rewrite X1. unfold rest_of in M1.
    destruct (after (s2b "?>") (skip s9)); [|reflexivity]. cbn [negb].
    rewrite bare_comments by exact (fm_bare _ _ _ M1 eq_refl). apply f_comments, M1. }
  unfold a_field. destruct (0 <? _).
  - pose proof (f_until _ _ _ true quotes M10 quotes_solid quotes_short) as U.
    destruct (until quotes _) as [[[[t it] x] y]|]; [|destruct U as (stn & U & _); rewrite U; reflexivity].
    destruct U as (st11 & U & M11). rewrite U. cbn [bind].
    unfold is_yes. destruct (mem_sub (cs t) 0 3) as [y0| |] eqn:Em; cbn [bind bindo].
    + specialize (Y (with_standalone d8 (bytes_eqb y0 (s2b "yes"))) y st11 M11).
      destruct (after (s2b "?>") (skip y)); exact Y.
    + reflexivity.
    + clear - Em. unfold mem_sub in Em. destruct (_ || _ || _) in Em; discriminate.
  - cbn [bind bindo]. specialize (Y d8 _ st10 M10).
    destruct (after (s2b "?>") (skip (rest2 (skip s8) (Q1 (s2b "standalone=")) (Q2 (s2b "standalone="))))); exact Y.
Qed.
Lemma f_doctype st s d : fm true st s ->
    fsim (_ <- configure_encoding d ;;
  '(st, v) <- stream_inspect st (s2b "<!DOCTYPE") ;;
  if 0 <? v then
    '(st, _) <- get_until_ref st true [s2b ">"] ;;
    consume_comments st d
  else Ok (Some (st, d))) (a_doctype s d).
Proof.
  intros M. rewrite configure_ok. cbn [bind]. unfold a_doctype.
  destruct (f_inspect _ st s (s2b "<!DOCTYPE") M ltac:(sol)) as (st2 & v2 & E2 & X2 & _ & M2).
  rewrite E2. cbn [bind]. rewrite X2. unfold rest_of in M2. destruct (after (s2b "<!DOCTYPE") s) as [s2|].
  - pose proof (f_until_ref _ _ _ [s2b ">"] M2 ltac:(one) ltac:(sh)) as U.
    destruct (until [s2b ">"] s2) as [[[[t it] x] y]|].
    + destruct U as (st3 & U & M3). rewrite U. cbn [bind].
      rewrite bare_comments by exact (fm_bare _ _ _ M3 eq_refl). apply f_comments, M3.
    + destruct U as (st3 & U & M3). rewrite U. cbn [bind].
      rewrite bare_comments by exact (fm_bare _ _ _ M3 eq_refl). apply f_comments, M3.
  - eexists. split; [reflexivity|exact M2].
Qed.

Lemma fm_weak b st s : fm b st s -> fm false st s.
Proof. intros [_ H]. split; [discriminate|exact H]. Qed.
Lemma fm_strong st s : fm false st s -> bare s -> fm true st s.
Proof. intros [_ H] B. split; [auto|exact H]. Qed.

Lemma f_bom st win left : fmem st win left -> s_idx st = 0 -> left = [] \/ (64 <= length win)%nat -> win ++ left <> [] ->
  exists st', (bom <- stream_check st ["239"; "187"; "191"]%char ;;
     Ok (if (bom : bool) then stream_move st 3 else st)) = Ok st' /\ fm false st' (rest_of (win ++ left) BOM).
Proof.
  intros M I0 G N. assert (F : fm false st (win ++ left)) by (split; [discriminate|eauto]).
  pose proof M as (pre & post & K & B & I & Z & Lb & Ls & L64 & T).
  assert (pre = []) by (destruct pre; [reflexivity|simpl length in I; lia]). subst pre. cbn [app length] in *.
  unfold stream_check. rewrite B, I0. change (win ++ post) with ([] ++ win ++ post).
  rewrite ptr_at_app by reflexivity. cbn [bind app]. change ["239"; "187"; "191"]%char with BOM.
  destruct (Nat.le_gt_cases 3 (length win)) as [L|L].
  - rewrite (memcmp_cs BOM win post) by (try exact L; try discriminate; try reflexivity; nf). cbn [bind].
    eexists. split; [reflexivity|]. unfold rest_of. rewrite after_within by exact L.
    destruct (after BOM win) as [r|] eqn:A; [|exact F].
    apply after_Some in A. subst win. change (stream_move st 3) with (set_pos st 3 0).
    split; [discriminate|]. exists r, left. split; [reflexivity|]. apply (fmem_advance st BOM); [exact M|]. rewrite I0. reflexivity.
  - assert (left = []) as -> by (destruct G; [assumption|lia]). rewrite app_nil_r in *.
    unfold axl_memcmp, cs. rewrite memcmp_over; auto; try nf; try reflexivity; try exact L.
    cbn [bind]. eexists. split; [reflexivity|]. unfold rest_of. rewrite after_short by exact L. exact F.
Qed.

Lemma f_header st win left d s : fmem st win left -> s_idx st = 0 -> left = [] \/ (64 <= length win)%nat ->
  s = rest_of (win ++ left) BOM -> (2 <= length s)%nat ->
  match after (s2b "<?") s with None => bare s | Some r => bare r /\ versioned r end ->
  fsimr (parse_xml_header st d) (a_header (win ++ left) d).
Proof.
  intros M I G Es L H. unfold parse_xml_header, a_header. destruct (f_bom st win left M I G) as (st1 & E1 & M1).
  { intros E. rewrite E in Es. cbn in Es. subst s. simpl in L. lia. }
  destruct (stream_check st _) as [bom| |]; cbn [bind] in E1 |- *; [|discriminate..]. injection E1 as ->.
  cbv zeta. rewrite <- Es in *. clear Es M G I.
  destruct (f_inspect _ st1 s (s2b "<?") M1 ltac:(sol)) as (st2 & v2 & E2 & _ & X2 & M2).
  rewrite E2. cbn [bind]. clear E2.
  assert (v2 = insp s (s2b "<?")) as -> by (destruct X2 as [X2|[X2 _]]; [exact X2|cbn in X2; lia]). clear X2.
  unfold insp, rest_of in *. destruct (after (s2b "<?") s) as [r|] eqn:A.
  - change (1 =? 0) with false. cbv iota. destruct H as [Hb Hv]. apply fm_strong in M2; [|exact Hb].
    pose proof (f_decl _ _ d M2 Hv) as D.
    match type of D with fsimr ?x _ => set (X := x) in * end. clearbody X.
    destruct (a_decl r d) as [[[s3 d3]|]| |]; cbn [fsimr fsim] in D.
    + destruct D as (st3 & -> & M3). cbn [bind bindo]. apply f_doctype, M3.
    + rewrite D. reflexivity.
    + rewrite D. reflexivity.
    + contradiction.
  - replace (length s <? length (s2b "<?"))%nat with false by (symmetry; apply Nat.ltb_ge; cbn; lia).
    change (0 =? 0) with true. cbv iota. cbn [bind bindo]. apply f_doctype, fm_strong; assumption.
Qed.

Theorem large_ok content : tail_ws content -> (2 <= length (rest_of content BOM))%nat ->
  match after (s2b "<?") (rest_of content BOM) with None => bare (rest_of content BOM) | Some r => bare r /\ versioned r end ->
  doc_parse_file content = a_parse content.
Proof.
  intros T L H. unfold doc_parse_file, stream_file.
  assert (M0 : fmem (Stream (FD (Some content)) (repeat NUL (Z.to_nat buffer_size + 1)) buffer_size 0 0 0) [] content).
  { exists [], (repeat NUL (Z.to_nat buffer_size + 1)). cbn [s_kind s_buf s_bufsize s_size s_idx app length].
    rewrite repeat_length. unfold buffer_size. repeat split; try lia; try assumption. left. reflexivity. }
  destruct (fmem_prebuffer _ _ _ M0) as (st & win & left & more & E & M & G & I). rewrite E. cbn [bind].
  pose proof (grown_same _ _ _ _ _ G) as S. cbn [app] in S.
  assert (I0 : s_idx st = 0) by (destruct I as [->|I]; [reflexivity|exact I]).
  destruct G as (x & _ & _ & _ & _ & G). rewrite <- S in *. clear E M0 I S.
  unfold parse_common, a_parse. pose proof (f_header st win left pdoc_new _ M I0 G eq_refl L H) as Hd.
  destruct (a_header (win ++ left) pdoc_new) as [[[s d]|]| |]; cbn [fsimr fsim] in Hd.
  - destruct Hd as (st1 & -> & M1). cbn [bind]. unfold a_body.
    pose proof (f_node _ _ (with_header d) M1) as N.
    destruct (a_node s (with_header d)) as [[[s2 d2] e]|] eqn:An; [|cbn [fsim2] in N; rewrite N; reflexivity].
    destruct N as (st2 & -> & M2). cbn [bindo]. destruct e.
    + cbn [bindo]. unfold a_done. destruct (p_stack d2); reflexivity.
    + pose proof (fm_turns _ _ _ M2). pose proof (fm_bare _ _ _ M1 eq_refl) as B1.
      pose proof (ends_node _ _ _ _ _ (fm_tail _ _ _ M1) B1 An) as En.
      pose proof (f_content (length s2) s2 st2 d2 (turns st2) M2 (ends_lead _ _ B1 En) ltac:(lia) ltac:(lia)
        ltac:(rewrite (header_a_node _ _ _ _ _ An); reflexivity)) as C.
      destruct (a_content _ s2 d2) as [[s3 d3]|]; [|cbn [fsim] in C; rewrite C; reflexivity].
      destruct C as (st3 & -> & M3). cbn [bindo]. unfold a_done. destruct (p_stack d3); reflexivity.
  - rewrite Hd. reflexivity.
  - rewrite Hd. reflexivity.
  - contradiction.
Qed.
