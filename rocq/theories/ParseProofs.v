(** The parser on memory streams as a function of the text still to be read, without
    positions and buffers. *)
From Verif Require Import Prelude StrModel StrSpec StrProofs StrProofs2 StrProofs3 EscProofs AttrModel AttrSpec AttrProofs
  TreeModel StreamModel StreamProofs ParseModel.
Open Scope Z_scope.
Local Arguments Z.of_nat : simpl never.
Local Arguments Z.to_nat : simpl never.
Local Arguments Z.add : simpl never.
Local Arguments Z.sub : simpl never.
Local Arguments Z.eqb : simpl never.
Local Arguments Z.ltb : simpl never.
Local Arguments Z.leb : simpl never.

Definition obind {A B} (o : option A) (k : A -> option B) : option B :=
  match o with Some a => k a | None => None end.

(** ** the parser on texts *)
Definition a_pi (s : bytes) (d : pdoc) : option (bytes * pdoc) :=
  match after (s2b "<?") s with
  | None => Some (s, d)
  | Some s =>
    match until [s2b " ?>"; s2b "?>"; s2b " "] s with
    | None => None
    | Some (t, it, _, s) =>
      if bytes_eqb (map to_lower (cstr t)) (s2b "xml") then None
      else if (it =? 0) || (it =? 1) then Some (s, add_pi d (Pi (cstr t) None))
      else if it =? 2 then
        match until [s2b " ?>"; s2b "?>"] s with
        | None => None
        | Some (c, _, _, s) => Some (s, add_pi d (Pi (cstr t) (Some (cstr c))))
        end
      else None
    end
  end.

Definition a_comment (s : bytes) (d : pdoc) : option (bytes * pdoc * bool) :=
  match after (s2b "<!--") s with
  | None => Some (s, d, false)
  | Some s =>
    match until [s2b "-->"] s with
    | Some (c :: t, _, _, s) => Some (s, add_item d (IComment (c :: t)), true)
    | _ => None
    end
  end.
Fixpoint a_comments_loop (f : nat) (s : bytes) (d : pdoc) : option (bytes * pdoc) :=
  match f with
  | O => None
  | S f =>
    match a_comment (skip s) d with
    | None => None
    | Some (s, d, found) =>
      match (if p_header d then after (s2b "<?") (skip s) else None) with
      | Some _ => match a_pi (skip s) d with None => None | Some (s, d) => a_comments_loop f s d end
      | None => if (found : bool) then a_comments_loop f (skip s) d else Some (skip s, d)
      end
    end
  end.
Definition a_comments (s : bytes) (d : pdoc) := a_comments_loop (S (length s)) s d.

Definition a_preserve (l : list bool) (name : bytes) (value : option bytes) : option (list bool) :=
  if bytes_eqb name (s2b "xml:space") then
    match value with
    | None => None
    | Some v =>
      if bytes_eqb v (s2b "preserve") then Some (true :: l)
      else if bytes_eqb v (s2b "default") then Some (false :: l) else None
    end
  else Some (hd false l :: l).

Definition a_has (a : attrs) (k : bytes) : bool := match has_attribute a k with Ok b => b | _ => false end.
Definition a_set (a : attrs) (k : bytes) (v : option bytes) : attrs :=
  match set_attribute_core a k v true with Ok (a, _) => a | _ => a end.

Definition a_quote (s : bytes) : option (ascii * bytes) :=
  match after ["034"%char] s with
  | Some s => Some ("034"%char, s)
  | None => match after ["039"%char] s with Some s => Some ("039"%char, s) | None => None end
  end.
Definition a_value (q : ascii) (s : bytes) : option bytes * bytes :=
  match until [[q]] s with None => (None, s) | Some (t, _, _, s) => (Some (cstr t), s) end.
Fixpoint a_attrs (f : nat) (s : bytes) (d : pdoc) (a : attrs) : option (bytes * pdoc * attrs * bool) :=
  match f with
  | O => None
  | S f =>
    match after (s2b "/>") s with
    | Some s => Some (s, d, a, true)
    | None =>
      match after (s2b ">") s with
      | Some s => Some (s, d, a, false)
      | None =>
        match until [s2b "="] (skip s) with
        | None => None
        | Some (t, _, _, s) =>
          match cstr t with
          | [] => None
          | name =>
            match a_quote s with
            | None => None
            | Some (q, s) =>
              let '(value, s) := a_value q s in
              if a_has a name then None
              else match a_preserve (p_preserve d) name value with
                   | None => None
                   | Some l => a_attrs f (skip s) (with_preserve d l) (a_set a name value)
                   end
            end
          end
        end
      end
    end
  end.

Definition a_node (s : bytes) (d : pdoc) : option (bytes * pdoc * bool) :=
  match a_comments s d with
  | None => None
  | Some (s, d) =>
    match (match after (s2b "<") s with Some s => Some s | None => match s with [] => None | _ => Some s end end) with
    | None => None
    | Some s =>
      match until [s2b ">"; s2b " "] s with
      | None => None
      | Some (t, it, _, s) =>
        match cstr t with
        | [] => None
        | name =>
          match (if it =? 1 then
                   match a_attrs (S (length (skip s))) (skip s) d no_attrs with
                   | None => None
                   | Some (s, d, a, e) => Some (s, d, a, name, e)
                   end
                 else if Ascii.eqb (last name NUL) "/" then Some (s, d, no_attrs, removelast name, true)
                 else Some (s, d, no_attrs, name, false)) with
          | None => None
          | Some (s, d, a, name, e) =>
            if (e : bool) then Some (s, add_node d (Node name a []), true)
            else Some (s, with_stack d (Node name a [] :: p_stack d), false)
          end
        end
      end
    end
  end.

Definition a_close (s : bytes) (d : pdoc) : option bytes :=
  match until [s2b ">"] s with
  | Some (c :: t, _, _, s) =>
    let t := if is_ws (last (c :: t) NUL) then removelast (c :: t) else c :: t in
    match p_stack d with
    | [] => None
    | n :: _ => if bytes_eqb (cstr (n_name n)) (cstr t) then Some s else None
    end
  | _ => None
  end.
Definition closed (n : node) (r : list node) (d : pdoc) : pdoc :=
  let d := add_node (with_stack d r) n in with_preserve d (tl (p_preserve d)).

Definition starts (c s : bytes) : bool := match after c s with Some _ => true | None => false end.
Fixpoint a_content (f : nat) (s : bytes) (d : pdoc) : option (bytes * pdoc) :=
  match f with
  | O => None
  | S f =>
    match s with
    | [] => Some ([], d)
    | _ =>
      let s1 := if hd false (p_preserve d) then s else skip s in
      if starts (s2b "<?") s1 || starts (s2b "<!--") s1 then
        match a_comments s1 d with None => None | Some (s, d) => a_content f s d end
      else
        match after (s2b "</") s1 with
        | Some s =>
          match a_close s d with
          | None => None
          | Some s =>
            match p_stack d with
            | [] => None
            | n :: [] => Some (s, closed n [] d)
            | n :: r => a_content f s (closed n r d)
            end
          end
        | None =>
          match after (s2b "<![CDATA[") s1 with
          | Some s =>
            match until [s2b "]]>"] s with
            | None => None
            | Some (t, _, _, s) => a_content f s (add_item d (ICdata (cstr t)))
            end
          | None =>
            match after (s2b "<") s1 with
            | Some s => match a_node s d with None => None | Some (s, d, _) => a_content f s d end
            | None =>
              match until [s2b "<"] s with
              | None => None
              | Some (t, _, s, _) => a_content f s (add_item d (IContent (cstr t)))
              end
            end
          end
        end
    end
  end.

(** ** reaching the parser on texts *)
Section A.
Context {cx : ctx}.
Definition sim {A} (r : res (option (stream * A))) (o : option (bytes * A)) : Prop :=
  match o with
  | None => r = Ok None
  | Some (s, x) => exists st, r = Ok (Some (st, x)) /\ mem st s
  end.

Lemma cmp_loop_cs : forall a ra b rb, cmp_loop (a ++ NUL :: ra) (b ++ NUL :: rb) = Ok (bytes_eqb (cstr a) (cstr b)).
Proof.
  induction a as [|x a IH]; intros ra [|y b] rb; cbn [app cmp_loop cstr].
  - reflexivity.
  - change (Ascii.eqb NUL NUL) with true. cbv iota. destruct (Ascii.eqb y NUL); reflexivity.
  - destruct (Ascii.eqb x NUL); [reflexivity|]. change (Ascii.eqb NUL NUL) with true. reflexivity.
  - destruct (Ascii.eqb x NUL) eqn:Ex; [destruct (Ascii.eqb y NUL); reflexivity|].
    destruct (Ascii.eqb y NUL); [reflexivity|]. cbn [bytes_eqb].
    destruct (Ascii.eqb x y); [|reflexivity]. cbn [negb andb]. apply IH.
Qed.
Lemma axl_cmp_cs a b : axl_cmp (Some (cs a)) (Some (cs b)) = Ok (bytes_eqb (cstr a) (cstr b)).
Proof. apply cmp_loop_cs. Qed.
Lemma cstr_nul_free s : nul_free (cstr s).
Proof.
  induction s as [|c s IH]; simpl; [apply nul_free_nil|]. destruct (Ascii.eqb c NUL) eqn:E; [apply nul_free_nil|].
  apply nul_free_cons. auto.
Qed.
Lemma cstr_id s : nul_free s -> cstr s = s.
Proof.
  induction s as [|c s IH]; intros H; simpl; [reflexivity|]. apply nul_free_cons in H. destruct H as [-> H].
  f_equal. auto.
Qed.
Lemma to_lower_nul c : Ascii.eqb (to_lower c) NUL = Ascii.eqb c NUL.
Proof. destruct c as [[] [] [] [] [] [] [] []]; reflexivity. Qed.
Lemma map_lower_nul_free s : nul_free s -> nul_free (map to_lower s).
Proof.
  induction s as [|c s IH]; intros H; simpl; [exact H|]. apply nul_free_cons in H. apply nul_free_cons.
  rewrite to_lower_nul. tauto.
Qed.
End A.
Ltac gc := repeat constructor; try discriminate; apply nul_free_lit; reflexivity.
Ltac nf := apply nul_free_lit; reflexivity.

(** using the stream lemmas *)
Ltac use_inspect M E st' M' :=
  match goal with |- context [stream_inspect ?st ?c] =>
    let H := fresh in
    destruct (inspect_ok st _ c M ltac:(nf) ltac:(discriminate)) as (st' & E & M');
    rewrite E; cbn [bind bindo]; rewrite ?insp_pos
  end.
Section B.
Context {cx : ctx}.


Lemma a_pi_ok st s d : mem st s -> sim (consume_pi st d) (a_pi s d).
Proof.
  intros M. unfold consume_pi, a_pi.
  destruct (peek_ok st s (s2b "<?") M ltac:(nf) ltac:(discriminate)) as (st1 & E & M1 & _ & MA).
  rewrite E. cbn [bind]. rewrite insp_pos. unfold rest_of in MA. destruct (after (s2b "<?") s) as [s1|].
  2: { exists st1. auto. }
  specialize (MA ltac:(discriminate)).
  pose proof (get_until_ok _ _ true [s2b " ?>"; s2b "?>"; s2b " "] MA ltac:(gc)) as U.
  destruct (until _ s1) as [[[[t it] x] s2]|].
  2: { destruct U as (st2 & U & _). rewrite U. reflexivity. }
  destruct U as (st2 & U & M2). rewrite U. cbn [bind].
  rewrite axl_cmp_cs. cbn [bind]. rewrite (cstr_id (map _ _)) by apply map_lower_nul_free, cstr_nul_free.
  change (cstr (s2b "xml")) with (s2b "xml").
  destruct (bytes_eqb _ _); [reflexivity|].
  destruct (_ || _). { eexists. split; [reflexivity|exact M2]. }
  destruct (it =? 2); [|reflexivity].
  pose proof (get_until_ok _ _ true [s2b " ?>"; s2b "?>"] M2 ltac:(gc)) as U2.
  destruct (until _ s2) as [[[[c it2] x2] s3]|].
  - destruct U2 as (st3 & U2 & M3). rewrite U2. eexists. split; [reflexivity|exact M3].
  - destruct U2 as (st3 & U2 & _). rewrite U2. reflexivity.
Qed.
Lemma after_shorter c s r : c <> [] -> after c s = Some r -> (length r < length s)%nat.
Proof. intros H E. apply after_len in E. destruct c; [contradiction|simpl in *; lia]. Qed.
Lemma until_shorter chunks s t it a b : Forall good_chunk chunks -> until chunks s = Some (t, it, a, b) ->
  (length b < length s)%nat.
Proof. intros G H. apply until_len in H; [lia|assumption]. Qed.

Lemma a_pi_len s d s' d' x : a_pi s d = Some (s', d') -> after (s2b "<?") s = Some x -> (length s' < length s)%nat.
Proof.
  intros H A. unfold a_pi in H. rewrite A in H. pose proof (after_shorter (s2b "<?") _ _ ltac:(discriminate) A).
  destruct (until _ x) as [[[[t it] y] s2]|] eqn:U; [|discriminate].
  pose proof (until_shorter [s2b " ?>"; s2b "?>"; s2b " "] x _ _ _ _ ltac:(gc) U).
  destruct (bytes_eqb _ _); [discriminate|]. destruct (_ || _); [inversion H; subst; lia|].
  destruct (it =? 2); [|discriminate].
  destruct (until _ s2) as [[[[t3 it3] y3] s3]|] eqn:U3; [|discriminate].
  pose proof (until_shorter [s2b " ?>"; s2b "?>"] s2 _ _ _ _ ltac:(gc) U3). inversion H; subst; lia.
Qed.
Lemma a_comment_len s d s' d' f : a_comment s d = Some (s', d', f) ->
  (length s' <= length s)%nat /\ (f = true -> (length s' < length s)%nat).
Proof.
  unfold a_comment. destruct (after (s2b "<!--") s) as [x|] eqn:A.
  - pose proof (after_shorter (s2b "<!--") _ _ ltac:(discriminate) A).
    destruct (until _ x) as [[[[[|c t] it] y] s2]|] eqn:U; try discriminate. intros H'. inversion H'; subst.
    pose proof (until_shorter [s2b "-->"] x _ _ _ _ ltac:(gc) U). split; lia.
  - intros H. inversion H; subst. split; [lia|discriminate].
Qed.
Lemma a_comment_header s d s' d' f : a_comment s d = Some (s', d', f) -> p_header d' = p_header d.
Proof.
  unfold a_comment. destruct (after _ s) as [x|]; [|intros H; inversion H; reflexivity].
  destruct (until _ x) as [[[[[|c t] it] y] s2]|]; try discriminate. intros H. inversion H; subst.
  unfold add_item. destruct (p_stack d); reflexivity.
Qed.

Lemma a_comments_fuel : forall n f g s d, (length s <= n)%nat -> (length s < f)%nat -> (length s < g)%nat ->
  a_comments_loop f s d = a_comments_loop g s d.
Proof.
  induction n as [|n IH]; intros f g s d L Hf Hg; (destruct f as [|f]; [lia|]); (destruct g as [|g]; [lia|]).
  - destruct s; [|simpl in L; lia]. cbn [a_comments_loop skip length]. unfold a_comment. cbn [after].
    change (after (s2b "<!--") []) with (@None bytes). cbv iota beta.
    change (after (s2b "<?") (skip [])) with (@None bytes). destruct (p_header d); reflexivity.
  - cbn [a_comments_loop]. pose proof (skip_len s) as K.
    destruct (a_comment (skip s) d) as [[[s1 d1] found]|] eqn:C; [|reflexivity].
    destruct (a_comment_len _ _ _ _ _ C) as [L1 L2]. pose proof (skip_len s1) as K1.
    destruct (if p_header d1 then _ else None) as [x|] eqn:A.
    + destruct (p_header d1); [|discriminate]. destruct (a_pi (skip s1) d1) as [[s2 d2]|] eqn:P; [|reflexivity].
      pose proof (a_pi_len _ _ _ _ _ P A). apply IH; lia.
    + destruct found; [|reflexivity]. specialize (L2 eq_refl). apply IH; lia.
Qed.
Lemma a_comments_eq s d : a_comments s d =
  match a_comment (skip s) d with
  | None => None
  | Some (s, d, found) =>
    match (if p_header d then after (s2b "<?") (skip s) else None) with
    | Some _ => match a_pi (skip s) d with None => None | Some (s, d) => a_comments s d end
    | None => if (found : bool) then a_comments (skip s) d else Some (skip s, d)
    end
  end.
Proof.
  unfold a_comments at 1. cbn [a_comments_loop]. pose proof (skip_len s) as K.
  destruct (a_comment (skip s) d) as [[[s1 d1] found]|] eqn:C; [|reflexivity].
  destruct (a_comment_len _ _ _ _ _ C) as [L1 L2]. pose proof (skip_len s1) as K1.
  destruct (if p_header d1 then _ else None) as [x|] eqn:A.
  - destruct (p_header d1); [|discriminate]. destruct (a_pi (skip s1) d1) as [[s2 d2]|] eqn:P; [|reflexivity].
    pose proof (a_pi_len _ _ _ _ _ P A). apply (a_comments_fuel (length s2)); lia.
  - destruct found; [|reflexivity]. specialize (L2 eq_refl). apply (a_comments_fuel (length (skip s1))); lia.
Qed.
Lemma a_comments_len : forall n s d s' d', (length s <= n)%nat -> a_comments s d = Some (s', d') ->
  (length s' <= length s)%nat.
Proof.
  induction n as [|n IH]; intros s d s' d' L H; rewrite a_comments_eq in H; pose proof (skip_len s) as K;
    (destruct (a_comment (skip s) d) as [[[s1 d1] found]|] eqn:C; [|discriminate]);
    destruct (a_comment_len _ _ _ _ _ C) as [L1 L2]; pose proof (skip_len s1) as K1;
    destruct (if p_header d1 then _ else None) as [x|] eqn:A.
  - destruct (p_header d1); [|discriminate]. destruct (a_pi (skip s1) d1) as [[s2 d2]|] eqn:P; [|discriminate].
    pose proof (a_pi_len _ _ _ _ _ P A). lia.
  - destruct found; [specialize (L2 eq_refl); lia|]. inversion H; subst. lia.
  - destruct (p_header d1); [|discriminate]. destruct (a_pi (skip s1) d1) as [[s2 d2]|] eqn:P; [|discriminate].
    pose proof (a_pi_len _ _ _ _ _ P A). apply IH in H; lia.
  - destruct found; [specialize (L2 eq_refl); apply IH in H; lia|]. inversion H; subst. lia.
Qed.

Lemma comments_step_ok st s d : mem st s ->
  exists st1, consume_spaces st = Ok st1 /\ mem st1 (skip s) /\
  sim ('(st, v) <- stream_inspect st1 (s2b "<!--") ;;
    (if 0 <? v then
         '(st, o) <- get_until_ref st true [s2b "-->"] ;;
         match o with
         | None => Ok None
         | Some (content, _) => Ok (Some (st, (add_item d (IComment content), true)))
         end
       else Ok (Some (st, (d, false)))))
    (match a_comment (skip s) d with Some (s, d, f) => Some (s, (d, f)) | None => None end).
Proof.
  intros M. destruct (spaces_ok _ _ M) as (st1 & E & M1 & _). exists st1. split; [exact E|]. split; [exact M1|].
  destruct (inspect_ok st1 _ (s2b "<!--") M1 ltac:(nf) ltac:(discriminate)) as (st2 & E2 & M2).
  rewrite E2. cbn [bind]. rewrite insp_pos. unfold a_comment, rest_of in *. destruct (after (s2b "<!--") (skip s)) as [x|].
  - pose proof (get_until_ref_ok _ _ [s2b "-->"] M2 ltac:(gc)) as U.
    destruct (until _ x) as [[[[t it] y] s2]|].
    + destruct U as (st3 & U & M3). rewrite U. cbn [bind]. destruct t as [|c t]; [reflexivity|]. exists st3. auto.
    + destruct U as (st3 & U & _). rewrite U. reflexivity.
  - exists st2. auto.
Qed.

Lemma tail_ok {A} st s (d : A) : mem st (skip s) ->
  sim (st <- consume_spaces st ;; Ok (Some (st, d))) (Some (skip s, d)).
Proof.
  intros M. destruct (spaces_ok _ _ M) as (st9 & E9 & M9 & _). rewrite E9. exists st9. rewrite skip_skip in M9. auto.
Qed.
Lemma comments_loop_ok : forall n s st d f, mem st s -> (length s <= n)%nat -> (n < f)%nat ->
  sim (comments_loop f st d) (a_comments s d).
Proof.
  induction n as [|n IH]; intros s st d f M L Hf; (destruct f as [|f]; [lia|]); rewrite a_comments_eq;
    cbn [comments_loop]; pose proof (skip_len s) as K;
    destruct (comments_step_ok st s d M) as (st1 & E1 & M1 & S1); rewrite E1; cbn [bind];
    (destruct (inspect_ok st1 _ (s2b "<!--") M1 ltac:(nf) ltac:(discriminate)) as (st2 & E2 & M2));
    rewrite E2 in S1 |- *; cbn [bind] in S1 |- *;
    (destruct (a_comment (skip s) d) as [[[s1 d1] found]|] eqn:C;
      [destruct S1 as (st3 & S1 & M3)|]);
    cbn [sim] in S1.
  all: match goal with |- context [bindo ?e _] =>
         match type of S1 with _ = Ok (Some _) => assert (B : e = Ok (Some (st3, d1, found)))
                             | _ => assert (B : e = Ok None) end end;
       [ clear - S1; destruct (0 <? insp (skip s) (s2b "<!--")); [|inversion S1; reflexivity];
         destruct (get_until_ref st2 true [s2b "-->"]) as [[st' [[c i]|]]| |]; cbn [bind] in *; inversion S1; reflexivity
       | rewrite B; clear B; cbn [bindo] ]; try reflexivity.
  all: destruct (a_comment_len _ _ _ _ _ C) as [L1 L2]; pose proof (skip_len s1) as K1;
    destruct (spaces_ok _ _ M3) as (st4 & E4 & M4 & _); rewrite E4; cbn [bind];
    destruct (p_header d1) eqn:Hh.
  1, 3: destruct (peek_ok st4 _ (s2b "<?") M4 ltac:(nf) ltac:(discriminate)) as (st5 & E5 & M5 & _);
    rewrite E5; cbn [bind]; rewrite insp_pos;
    (destruct (after (s2b "<?") (skip s1)) as [x|] eqn:A;
     [ pose proof (a_pi_ok st5 _ d1 M5) as P;
       (destruct (a_pi (skip s1) d1) as [[s2 d2]|] eqn:Pi;
        [ destruct P as (st6 & P & M6); rewrite P; cbn [bindo]; pose proof (a_pi_len _ _ _ _ _ Pi A)
        | cbn [sim] in P; rewrite P; reflexivity ])
     | destruct found; cbn [bindo]; [specialize (L2 eq_refl)|] ]).
  7, 8: cbn [bind]; change (0 <? 0) with false; destruct found; cbn [bindo]; [specialize (L2 eq_refl)|].
  all: try lia.
  all: try (apply IH; [assumption|lia|lia]).
  all: apply tail_ok; assumption.
Qed.
Lemma comments_ok st s d : mem st s -> sim (consume_comments st d) (a_comments s d).
Proof. intros M. apply (comments_loop_ok (length s)); [exact M|lia|]. pose proof (mem_turns _ _ M). lia. Qed.

(** ** start tags *)
Lemma preserve_ok l name value : nul_free name -> (forall v, value = Some v -> nul_free v) ->
  preserve_push l name value = Ok (a_preserve l name value).
Proof.
  intros Hn Hv. unfold preserve_push, a_preserve. rewrite axl_cmp_cs, (cstr_id name) by assumption. cbn [bind].
  change (cstr (s2b "xml:space")) with (s2b "xml:space").
  destruct (bytes_eqb _ _); [|reflexivity]. destruct value as [v|]; [|reflexivity]. cbn [option_map].
  rewrite !axl_cmp_cs, (cstr_id v) by (apply Hv; reflexivity). cbn [bind].
  change (cstr (s2b "preserve")) with (s2b "preserve"). change (cstr (s2b "default")) with (s2b "default").
  destruct (bytes_eqb v (s2b "preserve")); [reflexivity|]. destruct (bytes_eqb v (s2b "default")); reflexivity.
Qed.
Lemma a_has_ok a m k : arep a m -> nul_free k -> has_attribute a k = Ok (a_has a k) /\
  a_has a k = match a_find m k with Some _ => true | None => false end.
Proof. intros R K. unfold a_has. rewrite (has_attribute_ok a m k R K). auto. Qed.
Lemma a_set_ok a m k v : arep a m -> nul_free k -> exists b,
  set_attribute_core a k v true = Ok (a_set a k v, b) /\ arep (a_set a k v) (a_add m k v).
Proof. intros R K. unfold a_set. destruct (set_core_ok a m k v true R K) as (n' & E & R'). rewrite E. eauto. Qed.

Definition sim3 {A B C} (r : res (option (stream * A * B * C))) (o : option (bytes * A * B * C)) : Prop :=
  match o with
  | None => r = Ok None
  | Some (s, x, y, z) => exists st, r = Ok (Some (st, x, y, z)) /\ mem st s
  end.
Definition sim2 {A B} (r : res (option (stream * A * B))) (o : option (bytes * A * B)) : Prop :=
  match o with
  | None => r = Ok None
  | Some (s, x, y) => exists st, r = Ok (Some (st, x, y)) /\ mem st s
  end.

Lemma a_quote_shorter s q s' : a_quote s = Some (q, s') -> (length s' < length s)%nat /\ (q = "034"%char \/ q = "039"%char).
Proof.
  unfold a_quote. destruct (after ["034"%char] s) as [x|] eqn:A.
  - intros H. inversion H; subst. split; [|auto]. apply (after_shorter ["034"%char]); [discriminate|assumption].
  - destruct (after ["039"%char] s) as [x|] eqn:A'; [|discriminate].
    intros H. inversion H; subst. split; [|auto]. apply (after_shorter ["039"%char]); [discriminate|assumption].
Qed.
Lemma good_quote q : q = "034"%char \/ q = "039"%char -> Forall good_chunk [[q]].
Proof. intros [-> | ->]; gc. Qed.
Lemma a_value_len q s v s' : q = "034"%char \/ q = "039"%char -> a_value q s = (v, s') -> (length s' <= length s)%nat.
Proof.
  intros Q. unfold a_value. destruct (until [[q]] s) as [[[[t it] x] y]|] eqn:U; intros H; inversion H; subst; [|lia].
  apply until_shorter in U; [lia|apply good_quote, Q].
Qed.
Lemma quote_ok st s : mem st s ->
  sim ('(st, v) <- stream_inspect st ["034"%char] ;;
       (if 0 <? v then Ok (Some (st, "034"%char))
               else
                 '(st, v) <- stream_inspect st ["039"%char] ;;
                 if 0 <? v then Ok (Some (st, "039"%char)) else Ok None))
      (match a_quote s with Some (q, s) => Some (s, q) | None => None end).
Proof.
  intros M. destruct (inspect_ok st s ["034"%char] M ltac:(nf) ltac:(discriminate)) as (st1 & E1 & M1).
  rewrite E1. cbn [bind]. rewrite insp_pos. unfold a_quote, rest_of in *. destruct (after ["034"%char] s) as [x|].
  { exists st1. auto. }
  destruct (inspect_ok st1 s ["039"%char] M1 ltac:(nf) ltac:(discriminate)) as (st2 & E2 & M2).
  rewrite E2. cbn [bind]. rewrite insp_pos. unfold rest_of in *. destruct (after ["039"%char] s) as [x|]; [|reflexivity].
  exists st2. auto.
Qed.
Lemma value_ok st s q : mem st s -> q = "034"%char \/ q = "039"%char ->
  exists st' o, get_until st true [[q]] = Ok (st', o) /\ mem st' (snd (a_value q s)) /\
    match o with None => None | Some (t, _) => Some (cstr t) end = fst (a_value q s).
Proof.
  intros M Q. pose proof (get_until_ok st s true [[q]] M (good_quote q Q)) as U. unfold a_value.
  destruct (until [[q]] s) as [[[[t it] x] y]|].
  - destruct U as (st' & U & M'). exists st'. eexists. split; [exact U|]. auto.
  - destruct U as (st' & U & M'). exists st'. eexists. split; [exact U|]. auto.
Qed.
Lemma value_nul_free q s v : fst (a_value q s) = Some v -> nul_free v.
Proof.
  unfold a_value. destruct (until [[q]] s) as [[[[t it] x] y]|]; intros H; inversion H. apply cstr_nul_free.
Qed.

Lemma a_attrs_fuel : forall n f g s d a, (length s <= n)%nat -> (length s < f)%nat -> (length s < g)%nat ->
  a_attrs f s d a = a_attrs g s d a.
Proof.
  induction n as [|n IH]; intros f g s d a L Hf Hg; (destruct f as [|f]; [lia|]); (destruct g as [|g]; [lia|]); cbn [a_attrs];
    (destruct (after (s2b "/>") s); [reflexivity|]); (destruct (after (s2b ">") s); [reflexivity|]); pose proof (skip_len s) as K;
    (destruct (until [s2b "="] (skip s)) as [[[[t it] x] y]|] eqn:U; [|reflexivity]);
    pose proof (until_shorter [s2b "="] (skip s) _ _ _ _ ltac:(gc) U).
  - lia.
  - destruct (cstr t); [reflexivity|]. destruct (a_quote y) as [[q s2]|] eqn:Q; [|reflexivity].
    apply a_quote_shorter in Q. destruct Q as [L2 Q].
    destruct (a_value q s2) as [v s3] eqn:V. apply a_value_len in V; [|exact Q].
    destruct (a_has a _); [reflexivity|]. destruct (a_preserve _ _ v); [|reflexivity].
    pose proof (skip_len s3). apply IH; lia.
Qed.
Lemma a_attrs_len : forall f s d a s' d' a' e, a_attrs f s d a = Some (s', d', a', e) -> (length s' < length s)%nat.
Proof.
  induction f as [|f IH]; intros s d a s' d' a' e H; [discriminate|]. cbn [a_attrs] in H.
  destruct (after (s2b "/>") s) as [x|] eqn:A1.
  { inversion H; subst. apply (after_shorter (s2b "/>")); [discriminate|assumption]. }
  destruct (after (s2b ">") s) as [x|] eqn:A2.
  { inversion H; subst. apply (after_shorter (s2b ">")); [discriminate|assumption]. }
  pose proof (skip_len s) as K.
  destruct (until [s2b "="] (skip s)) as [[[[t it] x] y]|] eqn:U; [|discriminate].
  pose proof (until_shorter [s2b "="] (skip s) _ _ _ _ ltac:(gc) U).
  destruct (cstr t); [discriminate|]. destruct (a_quote y) as [[q s2]|] eqn:Q; [|discriminate].
  apply a_quote_shorter in Q. destruct Q as [L2 Q].
  destruct (a_value q s2) as [v s3] eqn:V. apply a_value_len in V; [|exact Q].
  destruct (a_has a _); [discriminate|]. destruct (a_preserve _ _ v); [|discriminate].
  pose proof (skip_len s3). apply IH in H. lia.
Qed.

Lemma attrs_loop_S f st d a : attrs_loop (S f) st d a =
  ('(st, v) <- stream_inspect st (s2b "/>") ;;
    if 0 <? v then Ok (Some (st, d, a, true))
    else
      '(st, v) <- stream_inspect st (s2b ">") ;;
      if 0 <? v then Ok (Some (st, d, a, false))
      else
        st <- consume_spaces st ;;
        '(st, o) <- get_until st true [s2b "="] ;;
        match o with
        | None => Ok None
        | Some (name, _) =>
          let name := cstr name in
          match name with
          | [] => Ok None
          | _ =>
            '(st, v) <- stream_inspect st ["034"%char] ;;
            '(st, delim) <-!
              (if 0 <? v then Ok (Some (st, "034"%char))
               else
                 '(st, v) <- stream_inspect st ["039"%char] ;;
                 if 0 <? v then Ok (Some (st, "039"%char)) else Ok None) ;;
            '(st, o) <- get_until st true [[delim]] ;;
            let value := match o with None => None | Some (t, _) => Some (cstr t) end in
            h <- has_attribute a name ;;
            if (h : bool) then Ok None
            else
              '(a, _) <- set_attribute_core a name value true ;;
              p <- preserve_push (p_preserve d) name value ;;
              match p with
              | None => Ok None
              | Some l =>
                st <- consume_spaces st ;;
                attrs_loop f st (with_preserve d l) a
              end
          end
        end).
Proof. reflexivity. Qed.

Lemma attrs_loop_ok : forall n s st d a m f, mem st s -> (length s <= n)%nat -> (n < f)%nat -> arep a m ->
  sim3 (attrs_loop f st d a) (a_attrs (S (length s)) s d a).
Proof.
  induction n as [|n IH]; intros s st d a m f M L Hf R; (destruct f as [|f]; [lia|]); rewrite attrs_loop_S; cbn [a_attrs];
    (destruct (inspect_ok st s (s2b "/>") M ltac:(nf) ltac:(discriminate)) as (st1 & E1 & M1));
    rewrite E1; cbn [bind]; rewrite insp_pos; unfold rest_of in M1;
    (destruct (after (s2b "/>") s) as [x|]; [exists st1; auto|]);
    (destruct (inspect_ok st1 s (s2b ">") M1 ltac:(nf) ltac:(discriminate)) as (st2 & E2 & M2));
    rewrite E2; cbn [bind]; rewrite insp_pos; unfold rest_of in M2;
    (destruct (after (s2b ">") s) as [x|]; [exists st2; auto|]);
    destruct (spaces_ok _ _ M2) as (st3 & E3 & M3 & _); rewrite E3; cbn [bind];
    pose proof (get_until_ok _ _ true [s2b "="] M3 ltac:(gc)) as U; pose proof (skip_len s) as K;
    (destruct (until [s2b "="] (skip s)) as [[[[t it] x] y]|] eqn:Un; [|destruct U as (stn & U & _); rewrite U; reflexivity]);
    pose proof (until_shorter [s2b "="] (skip s) _ _ _ _ ltac:(gc) Un); [lia|].
  destruct U as (st4 & U & M4). rewrite U. cbn [bind].
  pose proof (cstr_nul_free t) as Ht. cbv zeta. destruct (cstr t) as [|k0 k] eqn:Et; [reflexivity|]. rewrite <- Et in *. clear k0 k Et.
  pose proof (quote_ok _ _ M4) as Q.
  destruct (inspect_ok st4 y ["034"%char] M4 ltac:(nf) ltac:(discriminate)) as (st5 & E5 & M5).
  rewrite E5 in Q |- *. cbn [bind] in Q |- *.
  destruct (a_quote y) as [[q s2]|] eqn:Qe; [|cbn [sim] in Q; rewrite Q; reflexivity].
  destruct Q as (st6 & Q & M6). rewrite Q. cbn [bindo]. clear Q E5 M5.
  apply a_quote_shorter in Qe. destruct Qe as [L2 Qq].
  destruct (value_ok st6 s2 q M6 Qq) as (st7 & o & V & M7 & Ev). rewrite V. cbn [bind]. cbv zeta. rewrite Ev.
  pose proof (value_nul_free q s2) as Hv.
  destruct (a_value q s2) as [v s3] eqn:Vq. apply a_value_len in Vq; [|exact Qq]. cbn [fst snd] in *.
  destruct (a_has_ok a m (cstr t) R Ht) as [Hh _]. rewrite Hh. cbn [bind].
  destruct (a_has a (cstr t)); [reflexivity|].
  destruct (a_set_ok a m (cstr t) v R Ht) as (b & Es & R'). rewrite Es. cbn [bind].
  rewrite preserve_ok by assumption. cbn [bind].
  destruct (a_preserve _ _ v) as [l|]; [|reflexivity].
  destruct (spaces_ok _ _ M7) as (st8 & E8 & M8 & _). rewrite E8. cbn [bind]. pose proof (skip_len s3).
  rewrite (a_attrs_fuel (length (skip s3)) _ (S (length (skip s3)))) by lia.
  eapply IH; [exact M8|lia|lia|exact R'].
Qed.

Lemma rd_last s : s <> [] -> rd (cs s) (Z.of_nat (length s) - 1) = Ok (last s NUL).
Proof.
  intros H. destruct (exists_last H) as (a & c & ->). unfold cs. rewrite last_last, <- app_assoc. cbn [app].
  apply rd_app. rewrite app_length. simpl length. lia.
Qed.

Lemma node_start_ok st s : mem st s ->
  exists st', ('(st, v) <- stream_inspect st (s2b "<") ;;
  (if 0 <? v then Ok (st, true) else stream_remains st)) =
  Ok (st', match (match after (s2b "<") s with Some s => Some s | None => match s with [] => None | _ => Some s end end)
           with Some _ => true | None => false end) /\
  mem st' (match (match after (s2b "<") s with Some s => Some s | None => match s with [] => None | _ => Some s end end)
           with Some s => s | None => s end).
Proof.
  intros M. destruct (inspect_ok st s (s2b "<") M ltac:(nf) ltac:(discriminate)) as (st1 & E1 & M1).
  rewrite E1. cbn [bind]. rewrite insp_pos. unfold rest_of in M1. destruct (after (s2b "<") s) as [x|]; [eauto|].
  destruct (remains_ok _ _ M1) as (st2 & E2 & M2 & _). exists st2. rewrite E2. destruct s; auto.
Qed.

Lemma node_ok st s d : mem st s -> sim2 (parse_node st d) (a_node s d).
Proof.
  intros M. unfold parse_node, a_node. pose proof (comments_ok st s d M) as C.
  destruct (a_comments s d) as [[s1 d1]|]; [|cbn [sim] in C; rewrite C; reflexivity].
  destruct C as (st1 & C & M1). rewrite C. cbn [bindo]. clear C.
  destruct (node_start_ok _ _ M1) as (st2 & E2 & M2).
  destruct (inspect_ok st1 s1 (s2b "<") M1 ltac:(nf) ltac:(discriminate)) as (st1' & E1 & _).
  rewrite E1 in E2 |- *. cbn [bind] in E2 |- *. rewrite E2. cbn [bind]. clear E1 E2 st1'.
  destruct (match after (s2b "<") s1 with Some s => Some s | None => _ end) as [s2|]; [|reflexivity]. cbn [negb].
  pose proof (get_until_ok _ _ true [s2b ">"; s2b " "] M2 ltac:(gc)) as U.
  destruct (until [s2b ">"; s2b " "] s2) as [[[[t it] x] s3]|]; [|destruct U as (stn & U & _); rewrite U; reflexivity].
  destruct U as (st3 & U & M3). rewrite U. cbn [bind]. cbv zeta.
  destruct (cstr t) as [|k0 k] eqn:Et; [reflexivity|]. rewrite <- Et. assert (Hne : cstr t <> []) by congruence. clear k0 k Et.
  destruct (it =? 1).
  - destruct (spaces_ok _ _ M3) as (st4 & E4 & M4 & _). rewrite E4. cbn [bind]. pose proof (mem_turns _ _ M4).
    pose proof (attrs_loop_ok (length (skip s3)) _ _ d1 no_attrs [] (turns st4) M4 ltac:(lia) ltac:(lia) arep_none) as A.
    destruct (a_attrs _ (skip s3) d1 no_attrs) as [[[[s5 d5] a] e]|]; [|cbn [sim3] in A; rewrite A; reflexivity].
    destruct A as (st5 & A & M5). rewrite A. cbn [bindo]. destruct e; eexists; (split; [reflexivity|exact M5]).
  - rewrite rd_last by assumption. cbn [bind]. destruct (Ascii.eqb _ _); cbn [bindo]; eexists; (split; [reflexivity|exact M3]).
Qed.
Lemma a_node_len s d s' d' e : a_node s d = Some (s', d', e) -> (length s' < length s)%nat.
Proof.
  unfold a_node. destruct (a_comments s d) as [[s1 d1]|] eqn:C; [|discriminate].
  apply (a_comments_len (length s)) in C; [|lia].
  destruct (match after (s2b "<") s1 with Some s => Some s | None => _ end) as [s2|] eqn:A; [|discriminate].
  assert (length s2 <= length s1)%nat.
  { destruct (after (s2b "<") s1) eqn:A'; [apply after_len in A'; inversion A; subst; lia|].
    destruct s1; inversion A; subst; lia. }
  destruct (until [s2b ">"; s2b " "] s2) as [[[[t it] x] s3]|] eqn:U; [|discriminate].
  pose proof (until_shorter [s2b ">"; s2b " "] s2 _ _ _ _ ltac:(gc) U).
  destruct (cstr t); [discriminate|]. destruct (it =? 1).
  - destruct (a_attrs _ (skip s3) d1 no_attrs) as [[[[s5 d5] a5] e5]|] eqn:At; [|discriminate].
    apply a_attrs_len in At. pose proof (skip_len s3). destruct e5; intros H'; inversion H'; subst; lia.
  - destruct (Ascii.eqb _ _); intros H'; inversion H'; subst; lia.
Qed.

(** ** end tags *)
Lemma close_ok st s d : mem st s ->
  match a_close s d with
  | None => parse_close_node st d = Ok None
  | Some s' => exists st', parse_close_node st d = Ok (Some st') /\ mem st' s'
  end.
Proof.
  intros M. unfold parse_close_node, a_close. pose proof (get_until_ref_ok st s [s2b ">"] M ltac:(gc)) as U.
  destruct (until [s2b ">"] s) as [[[[t it] x] s3]|]; [|destruct U as (stn & U & _); rewrite U; reflexivity].
  destruct U as (st3 & U & M3). rewrite U. cbn [bind]. destruct t as [|c t]; [reflexivity|].
  rewrite rd_last by discriminate. cbn [bind]. cbv zeta. destruct (p_stack d) as [|n r]; [reflexivity|].
  rewrite axl_cmp_cs. cbn [bind]. destruct (bytes_eqb _ _); [|reflexivity]. eauto.
Qed.
Lemma a_close_len s d s' : a_close s d = Some s' -> (length s' < length s)%nat.
Proof.
  unfold a_close. destruct (until [s2b ">"] s) as [[[[[|c t] it] x] s3]|] eqn:U; try discriminate.
  destruct (p_stack d); [discriminate|]. destruct (bytes_eqb _ _); [|discriminate]. intros H; inversion H; subst.
  apply (until_shorter [s2b ">"] s _ _ _ _ ltac:(gc) U).
Qed.

(** ** content *)
Lemma a_comments_progress s d s' d' : p_header d = true -> starts (s2b "<?") s || starts (s2b "<!--") s = true ->
  a_comments s d = Some (s', d') -> (length s' < length s)%nat.
Proof.
  intros Hh Hs H. rewrite a_comments_eq in H. unfold starts in Hs.
  destruct s as [|c s]; [discriminate Hs|].
  assert (Ek : skip (c :: s) = c :: s).
  { assert (Ec : c = "<"%char).
    { change (after (s2b "<?") (c :: s)) with (if Ascii.eqb "<" c then after ["?"%char] s else None) in Hs.
      change (after (s2b "<!--") (c :: s)) with (if Ascii.eqb "<" c then after (s2b "!--") s else None) in Hs.
      destruct (Ascii.eqb_spec "<" c); [auto|discriminate]. }
    subst c. reflexivity. }
  rewrite Ek in H.
  destruct (a_comment (c :: s) d) as [[[s1 d1] found]|] eqn:C; [|discriminate].
  destruct (a_comment_len _ _ _ _ _ C) as [L1 L2]. pose proof (skip_len s1) as K1.
  pose proof (a_comment_header _ _ _ _ _ C) as Hd. rewrite Hd, Hh in H.
  destruct (after (s2b "<?") (skip s1)) as [x|] eqn:A.
  - destruct (a_pi (skip s1) d1) as [[s2 d2]|] eqn:P; [|discriminate].
    pose proof (a_pi_len _ _ _ _ _ P A). apply (a_comments_len (length s2)) in H; lia.
  - destruct found.
    + specialize (L2 eq_refl). apply (a_comments_len (length (skip s1))) in H; lia.
    + exfalso. unfold a_comment in C. destruct (after (s2b "<!--") (c :: s)).
      * destruct (until _ b) as [[[[[|] ?] ?] ?]|]; inversion C.
      * inversion C; subst. rewrite Ek in A. rewrite A in Hs. discriminate.
Qed.

Lemma header_item d i : p_header (add_item d i) = p_header d.
Proof. unfold add_item. destruct (p_stack d); reflexivity. Qed.
Lemma header_node d n : p_header (add_node d n) = p_header d.
Proof. unfold add_node. destruct (p_stack d); [reflexivity|]. apply header_item. Qed.
Lemma header_pi d p : p_header (add_pi d p) = p_header d.
Proof. unfold add_pi. destruct (p_stack d); [reflexivity|]. apply header_item. Qed.
Lemma header_a_pi s d s' d' : a_pi s d = Some (s', d') -> p_header d' = p_header d.
Proof.
  unfold a_pi. destruct (after _ s); [|intros H; inversion H; reflexivity].
  destruct (until _ b) as [[[[t it] x] s2]|]; [|discriminate]. destruct (bytes_eqb _ _); [discriminate|].
  destruct (_ || _); [intros H; inversion H; apply header_pi|]. destruct (it =? 2); [|discriminate].
  destruct (until _ s2) as [[[[? ?] ?] ?]|]; [|discriminate]. intros H; inversion H; apply header_pi.
Qed.
Lemma header_comments : forall n s d s' d', (length s <= n)%nat -> a_comments s d = Some (s', d') -> p_header d' = p_header d.
Proof.
  intros n s d s' d' _. unfold a_comments. generalize (S (length s)). intros f. revert s d.
  induction f as [|f IH]; intros s d H; [discriminate|]. cbn [a_comments_loop] in H.
  destruct (a_comment (skip s) d) as [[[s1 d1] found]|] eqn:C; [|discriminate]. apply a_comment_header in C. rewrite <- C.
  destruct (if p_header d1 then _ else None).
  - destruct (a_pi (skip s1) d1) as [[s2 d2]|] eqn:P; [|discriminate]. apply header_a_pi in P. rewrite <- P. eapply IH, H.
  - destruct found; [eapply IH, H|]. inversion H; reflexivity.
Qed.
Lemma header_attrs : forall f s d a s' d' a' e, a_attrs f s d a = Some (s', d', a', e) -> p_header d' = p_header d.
Proof.
  induction f as [|f IH]; intros s d a s' d' a' e H; [discriminate|]. cbn [a_attrs] in H.
  destruct (after (s2b "/>") s). { inversion H; reflexivity. }
  destruct (after (s2b ">") s). { inversion H; reflexivity. }
  destruct (until [s2b "="] (skip s)) as [[[[t it] x] y]|] eqn:U; [|discriminate].
  destruct (cstr t); [discriminate|]. destruct (a_quote y) as [[q s2]|] eqn:Q; [|discriminate].
  destruct (a_value q s2) as [v s3] eqn:V.
  destruct (a_has a _); [discriminate|]. destruct (a_preserve _ _ v); [|discriminate].
  apply IH in H. exact H.
Qed.
Lemma header_a_node s d s' d' e : a_node s d = Some (s', d', e) -> p_header d' = p_header d.
Proof.
  unfold a_node. destruct (a_comments s d) as [[s1 d1]|] eqn:C; [|discriminate]. apply (header_comments (length s)) in C; [|lia].
  destruct (match after (s2b "<") s1 with Some s => Some s | None => _ end) as [s2|]; [|discriminate].
  destruct (until [s2b ">"; s2b " "] s2) as [[[[t it] x] s3]|]; [|discriminate].
  destruct (cstr t) as [|k0 k]; [discriminate|]. rewrite <- C. destruct (it =? 1).
  - destruct (a_attrs _ (skip s3) d1 no_attrs) as [[[[s5 d5] a5] e5]|] eqn:At; [|discriminate]. apply header_attrs in At.
    rewrite <- At. destruct e5; intros H; inversion H; [apply header_node|reflexivity].
  - destruct (Ascii.eqb _ _); intros H; inversion H; [apply header_node|reflexivity].
Qed.
Lemma header_closed n r d : p_header (closed n r d) = p_header d.
Proof. unfold closed. cbn [with_preserve p_header]. rewrite header_node. reflexivity. Qed.

Lemma content_loop_S f st d : content_loop (S f) st d =
    ('(st, more) <- stream_remains st ;;
    if negb more then Ok (Some (st, d))
    else
      let index := s_idx st in
      st <- (if hd false (p_preserve d) then Ok st else consume_spaces st) ;;
      '(st, v1) <- stream_peek st (s2b "<?") ;;
      '(st, v2) <- (if 0 <? v1 then Ok (st, 0) else stream_peek st (s2b "<!--")) ;;
      if (0 <? v1) || (0 <? v2) then
        '(st, d) <-! consume_comments st d ;;
        content_loop f st d
      else
        '(st, v) <- stream_peek st (s2b "</") ;;
        if 0 <? v then
          let st := stream_accept st in
          match parse_close_node st d with
          | Ok (Some st) =>
            match p_stack d with
            | [] => Ok None
            | n :: r =>
              let d := add_node (with_stack d r) n in
              let d := with_preserve d (tl (p_preserve d)) in
              match r with
              | [] => Ok (Some (st, d))
              | _ => content_loop f st d
              end
            end
          | Ok None => Ok None
          | UB => UB
          | NoFuel => NoFuel
          end
        else
          '(st, v) <- stream_peek st (s2b "<![CDATA[") ;;
          if 0 <? v then
            let st := stream_accept st in
            '(st, o) <- get_until st true [s2b "]]>"] ;;
            match o with
            | None => Ok None
            | Some (text, _) => content_loop f st (add_item d (ICdata (cstr text)))
            end
          else
            '(st, v) <- stream_peek st (s2b "<") ;;
            if 0 <? v then
              let st := stream_accept st in
              '(st, d, _) <-! parse_node st d ;;
              content_loop f st d
            else
              let st := if index <? s_idx st then stream_move st index else st in
              '(st, o) <- get_until st false [s2b "<"] ;;
              match o with
              | None => Ok None
              | Some (text, _) => content_loop f st (add_item d (IContent (cstr text)))
              end).
Proof. reflexivity. Qed.

Lemma text_progress c s t it x y : after (s2b "<") (c :: s) = None -> until [s2b "<"] (c :: s) = Some (t, it, x, y) ->
  (length x < length (c :: s))%nat /\ t <> [].
Proof.
  intros A U. destruct t as [|c0 t].
  - exfalso. apply until_split in U; [|gc]. destruct U as (m & E & Ex & Hm & St). cbn [app] in E. subst x.
    unfold stop_at in St. replace (existsb ws_chunk [s2b "<"]) with false in St by reflexivity. cbn [andb] in St.
    cbn [hit] in St. replace (ws_chunk (s2b "<")) with false in St by reflexivity. rewrite A in St. discriminate.
  - apply until_len in U; [|gc]. simpl length in *. split; [lia|discriminate].
Qed.
Lemma after_lt_ws c s : is_ws c = true -> after (s2b "<") (c :: s) = None.
Proof.
  intros H. change (after (s2b "<") (c :: s)) with (if Ascii.eqb "<" c then Some s else None).
  destruct (Ascii.eqb_spec "<" c); [subst; discriminate|reflexivity].
Qed.
Lemma no_lt_skip s : after (s2b "<") (skip s) = None -> after (s2b "<") s = None.
Proof. destruct s as [|c s]; simpl skip; [auto|]. destruct (is_ws c) eqn:W; [intros _; apply after_lt_ws, W|auto]. Qed.

Lemma a_content_fuel : forall n f g s d, p_header d = true -> (length s <= n)%nat -> (length s < f)%nat -> (length s < g)%nat ->
  a_content f s d = a_content g s d.
Proof.
  induction n as [|n IH]; intros f g s d Hh L Hf Hg; (destruct f as [|f]; [lia|]); (destruct g as [|g]; [lia|]); cbn [a_content];
    (destruct s as [|c s]; [reflexivity|]); [simpl in L; lia|].
  match goal with |- context [starts (s2b "<?") ?x] => set (s1 := x) end.
  assert (L1 : (length s1 <= length (c :: s))%nat) by (unfold s1; pose proof (skip_len (c :: s)); destruct (hd _ _); lia).
  assert (N1 : after (s2b "<") s1 = None -> after (s2b "<") (c :: s) = None)
    by (unfold s1; destruct (hd _ _); [auto|apply no_lt_skip]).
  clearbody s1.
  destruct (_ || _) eqn:Hs.
  { destruct (a_comments s1 d) as [[s2 d2]|] eqn:C; [|reflexivity].
    pose proof (a_comments_progress _ _ _ _ Hh Hs C). apply (header_comments (length s1)) in C; [|lia].
    apply IH; [congruence|lia|lia|lia]. }
  destruct (after (s2b "</") s1) as [s2|] eqn:A.
  { pose proof (after_shorter (s2b "</") _ _ ltac:(discriminate) A).
    destruct (a_close s2 d) as [s3|] eqn:C; [|reflexivity]. apply a_close_len in C.
    destruct (p_stack d) as [|nd [|nd' r]]; try reflexivity. apply IH; [rewrite header_closed; exact Hh|lia|lia|lia]. }
  destruct (after (s2b "<![CDATA[") s1) as [s2|] eqn:A2.
  { pose proof (after_shorter (s2b "<![CDATA[") _ _ ltac:(discriminate) A2).
    destruct (until [s2b "]]>"] s2) as [[[[t it] x] s3]|] eqn:U; [|reflexivity].
    pose proof (until_shorter [s2b "]]>"] s2 _ _ _ _ ltac:(gc) U). apply IH; [rewrite header_item; exact Hh|lia|lia|lia]. }
  destruct (after (s2b "<") s1) as [s2|] eqn:A3.
  { pose proof (after_shorter (s2b "<") _ _ ltac:(discriminate) A3).
    destruct (a_node s2 d) as [[[s3 d3] e3]|] eqn:C; [|reflexivity]. pose proof (a_node_len _ _ _ _ _ C). apply header_a_node in C.
    apply IH; [congruence|lia|lia|lia]. }
  destruct (until [s2b "<"] (c :: s)) as [[[[t it] x] s3]|] eqn:U; [|reflexivity].
  pose proof (text_progress _ _ _ _ _ _ (N1 eq_refl) U) as [P _]. apply IH; [rewrite header_item; exact Hh|lia|lia|lia].
Qed.

Lemma skip_head s : match skip s with [] => True | c :: _ => is_ws c = false end.
Proof. induction s as [|c s IH]; simpl; [auto|]. destruct (is_ws c) eqn:E; [exact IH|exact E]. Qed.
Lemma until_white w : forallb is_ws w = true -> until [s2b "<"] w = None.
Proof.
  induction w as [|c w IH]; [reflexivity|]. cbn [forallb until]. intros H. apply andb_true_iff in H. destruct H as [Hc Hw].
  unfold stop_at. replace (existsb ws_chunk [s2b "<"]) with false by reflexivity. cbn [andb hit].
  replace (ws_chunk (s2b "<")) with false by reflexivity. rewrite after_lt_ws, IH by assumption. reflexivity.
Qed.
Lemma kept_more n m s a b : kept n s a b -> (n <= m)%nat -> kept m s a b.
Proof. intros [H|(H & L & K)] Lm; [left; exact H|right; repeat split; [exact H|lia|exact K]]. Qed.

Lemma until_one ch s t it x y : good_chunk ch -> ws_chunk ch = false -> until [ch] s = Some (t, it, x, y) -> s = t ++ ch ++ y.
Proof.
  intros G W U. apply until_split in U; [|constructor; [exact G|constructor]]. destruct U as (m & E & Ex & _ & St).
  unfold stop_at in St. cbn [existsb] in St. rewrite W in St. cbn [orb andb hit] in St. rewrite W in St.
  destruct (after ch x) as [r|] eqn:A; [|discriminate]. apply after_Some in A. injection St as _ El.
  rewrite E. f_equal. rewrite A in Ex. rewrite A. f_equal. apply (f_equal (skipn (length m))) in Ex.
  rewrite <- El in Ex at 1. rewrite !skipn_app, !skipn_all, !Nat.sub_diag in Ex. exact Ex.
Qed.
Lemma until_tag s t it x y : until [s2b ">"; s2b " "] s = Some (t, it, x, y) -> it <> 1 -> s = t ++ ">"%char :: y.
Proof.
  intros U N. apply until_split in U; [|gc]. destruct U as (m & E & Ex & _ & St).
  unfold stop_at in St. replace (existsb ws_chunk _) with true in St by reflexivity. cbn [andb] in St.
  destruct (match x with [] => false | c :: _ => is_ws c end).
  { injection St as H _. exfalso. apply N. rewrite <- H. reflexivity. }
  cbn [hit] in St. replace (ws_chunk (s2b ">")) with false in St by reflexivity. replace (ws_chunk (s2b " ")) with true in St by reflexivity.
  destruct (after (s2b ">") x) as [r|] eqn:A; [|discriminate]. apply after_Some in A. injection St as _ El.
  rewrite E. f_equal. rewrite A in *. destruct m as [|m0 [|m1 m]]; try discriminate. injection Ex as _ ->. reflexivity.
Qed.
Lemma until_suffix chunks s t it x y : Forall good_chunk chunks -> until chunks s = Some (t, it, x, y) -> exists a, s = a ++ y.
Proof. intros G U. apply until_split in U; [|exact G]. destruct U as (m & -> & -> & _). exists (t ++ m). rewrite app_assoc. reflexivity. Qed.
Lemma skip_suffix s : exists a, s = a ++ skip s.
Proof. destruct (skip_split s) as (a & E & _). eauto. Qed.
Definition ends_in (s y : bytes) : Prop := exists a, s = a ++ y.
Lemma ends_trans s x y : ends_in s x -> ends_in x y -> ends_in s y.
Proof. intros [a ->] [b ->]. exists (a ++ b). rewrite app_assoc. reflexivity. Qed.
Lemma ends_refl s : ends_in s s. Proof. exists []. reflexivity. Qed.
Lemma ends_after c s y : after c s = Some y -> ends_in s y.
Proof. intros A. apply after_Some in A. exists c. exact A. Qed.
Lemma a_comment_suffix s d s' d' b : a_comment s d = Some (s', d', b) -> ends_in s s'.
Proof.
  unfold a_comment. destruct (after (s2b "<!--") s) as [x|] eqn:A; [|intros H; injection H as <- _ _; apply ends_refl].
  apply ends_after in A. destruct (until [s2b "-->"] x) as [[[[[|c t] it] y] z]|] eqn:U; try discriminate.
  apply until_suffix in U; [|gc]. intros H. injection H as <- _ _. exact (ends_trans _ _ _ A U).
Qed.
Lemma a_pi_suffix s d s' d' : a_pi s d = Some (s', d') -> ends_in s s'.
Proof.
  unfold a_pi. destruct (after (s2b "<?") s) as [x|] eqn:A; [|intros H; injection H as <- _; apply ends_refl].
  apply ends_after in A. destruct (until _ x) as [[[[t it] y] z]|] eqn:U; [|discriminate]. apply until_suffix in U; [|gc].
  pose proof (ends_trans _ _ _ A U) as B. destruct (bytes_eqb _ _); [discriminate|].
  destruct (_ || _); [intros H; injection H as <- _; exact B|]. destruct (it =? 2); [|discriminate].
  destruct (until _ z) as [[[[t2 it2] y2] z2]|] eqn:U2; [|discriminate]. apply until_suffix in U2; [|gc].
  intros H. injection H as <- _. exact (ends_trans _ _ _ B U2).
Qed.
Lemma a_comments_suffix s d s' d' : a_comments s d = Some (s', d') -> ends_in s s' /\ match s' with [] => True | c :: _ => is_ws c = false end.
Proof.
  unfold a_comments. generalize (S (length s)). intros f. revert s d. induction f as [|f IH]; intros s d H; [discriminate|].
  cbn [a_comments_loop] in H. destruct (a_comment (skip s) d) as [[[s1 d1] found]|] eqn:C; [|discriminate].
  apply a_comment_suffix in C. pose proof (ends_trans _ _ _ (skip_suffix s) C) as B. pose proof (ends_trans _ _ _ B (skip_suffix s1)) as B2.
  destruct (if p_header d1 then _ else None).
  - destruct (a_pi (skip s1) d1) as [[s2 d2]|] eqn:P; [|discriminate]. apply a_pi_suffix in P. apply IH in H. destruct H as [H1 H2].
    split; [|exact H2]. exact (ends_trans _ _ _ (ends_trans _ _ _ B2 P) H1).
  - destruct found.
    + apply IH in H. destruct H as [H1 H2]. split; [|exact H2]. exact (ends_trans _ _ _ B2 H1).
    + injection H as <- _. split; [exact B2|apply skip_head].
Qed.
Lemma a_attrs_tag : forall f s d a s' d' a' e, a_attrs f s d a = Some (s', d', a', e) -> ends_in s (">"%char :: s').
Proof.
  induction f as [|f IH]; intros s d a s' d' a' e H; [discriminate|]. cbn [a_attrs] in H.
  destruct (after (s2b "/>") s) as [x|] eqn:A. { apply after_Some in A. injection H as <- _ _ _. exists ["/"%char]. exact A. }
  destruct (after (s2b ">") s) as [x|] eqn:A2. { apply after_Some in A2. injection H as <- _ _ _. exists []. exact A2. }
  destruct (until [s2b "="] (skip s)) as [[[[t it] x] y]|] eqn:U; [|discriminate]. apply until_suffix in U; [|gc].
  destruct (cstr t); [discriminate|]. destruct (a_quote y) as [[q s2]|] eqn:Q; [|discriminate].
  destruct (a_value q s2) as [v s3] eqn:V.
  destruct (a_has a _); [discriminate|]. destruct (a_preserve _ _ v); [|discriminate].
  apply IH in H. refine (ends_trans _ _ _ (ends_trans _ _ _ (skip_suffix s) U) _).
  assert (ends_in y s2).
  { unfold a_quote in Q. destruct (after ["034"%char] y) as [z|] eqn:Z1; [injection Q as _ <-; exact (ends_after _ _ _ Z1)|].
    destruct (after ["039"%char] y) as [z|] eqn:Z2; [injection Q as _ <-; exact (ends_after _ _ _ Z2)|discriminate]. }
  refine (ends_trans _ _ _ H0 _).
  assert (ends_in s2 s3).
  { unfold a_value in V. destruct (until [[q]] s2) as [[[[t2 it2] x2] y2]|] eqn:U2; [|injection V as _ <-; apply ends_refl].
    injection V as _ <-. apply until_suffix in U2; [exact U2|]. apply good_quote. unfold a_quote in Q.
    destruct (after ["034"%char] y); [injection Q as <- _; auto|]. destruct (after ["039"%char] y); [injection Q as <- _; auto|discriminate]. }
  exact (ends_trans _ _ _ (ends_trans _ _ _ H1 (skip_suffix s3)) H).
Qed.
Lemma a_node_tag s d s' d' e : a_node s d = Some (s', d', e) -> ends_in s (">"%char :: s').
Proof.
  unfold a_node. destruct (a_comments s d) as [[s1 d1]|] eqn:C; [|discriminate]. apply a_comments_suffix in C. destruct C as [C _].
  destruct (match after (s2b "<") s1 with Some s => Some s | None => _ end) as [s2|] eqn:A; [|discriminate].
  assert (A2 : ends_in s1 s2).
  { destruct (after (s2b "<") s1) eqn:Y; [injection A as <-; exact (ends_after _ _ _ Y)|]. destruct s1; [discriminate|injection A as <-; apply ends_refl]. }
  pose proof (ends_trans _ _ _ C A2) as B. clear C A A2.
  destruct (until [s2b ">"; s2b " "] s2) as [[[[t it] x] s3]|] eqn:U; [|discriminate].
  destruct (cstr t) as [|k0 k]; [discriminate|]. destruct (Z.eqb_spec it 1) as [I1|I1].
  - apply until_suffix in U; [|gc].
    destruct (a_attrs _ (skip s3) d1 no_attrs) as [[[[s5 d5] a5] e5]|] eqn:At; [|discriminate]. apply a_attrs_tag in At.
    pose proof (ends_trans _ _ _ (ends_trans _ _ _ B U) (ends_trans _ _ _ (skip_suffix s3) At)) as F.
    destruct e5; intros H; injection H as <- _ _; exact F.
  - apply until_tag in U; [|exact I1]. pose proof (ends_trans _ _ _ B (ex_intro _ t U : ends_in s2 (">"%char :: s3))) as F.
    destruct (Ascii.eqb _ _); intros H; injection H as <- _ _; exact F.
Qed.
Lemma a_close_tag s d s' : a_close s d = Some s' -> ends_in s (">"%char :: s').
Proof.
  unfold a_close. destruct (until [s2b ">"] s) as [[[[[|c t] it] x] y]|] eqn:U; try discriminate.
  apply until_one in U; [|split; [nf|discriminate]|reflexivity]. destruct (p_stack d); [discriminate|]. cbv zeta.
  destruct (bytes_eqb _ _); [|discriminate]. intros H. injection H as <-. exists (c :: t). exact U.
Qed.
Lemma ends_pos st s y : mem st s -> ends_in s (">"%char :: y) -> pos y.
Proof. intros M [a ->]. exact (mem_pos _ _ _ M). Qed.
Lemma head_pos s : match s with [] => True | c :: _ => is_ws c = false end -> pos s.
Proof. destruct s; intros H; [apply pos_nil|apply pos_solid, H]. Qed.

Lemma content_loop_ok : forall n s st d f, mem st s -> pos s -> (length s <= n)%nat -> (n < f)%nat -> p_header d = true ->
  sim (content_loop f st d) (a_content (S (length s)) s d).
Proof.
  induction n as [|n IH]; intros s st d f M Ps L Hf Hh; (destruct f as [|f]; [lia|]); rewrite content_loop_S; cbn [a_content];
    (destruct (remains_ok _ _ M) as (st0 & E0 & M0 & D0)); rewrite E0; cbn [bind];
    (destruct s as [|c s]; [cbn [negb]; exists st0; auto|]); [simpl in L; lia|]. cbn [negb].
  rewrite (D0 ltac:(discriminate)) in *. clear st0 E0 M0 D0.
  match goal with |- context [starts (s2b "<?") ?x] => set (s1 := x) end.
  assert (L1 : (length s1 <= length (c :: s))%nat) by (unfold s1; pose proof (skip_len (c :: s)); destruct (hd _ _); lia).
  assert (N1 : after (s2b "<") s1 = None -> after (s2b "<") (c :: s) = None)
    by (unfold s1; destruct (hd _ _); [auto|apply no_lt_skip]).
  assert (S1 : exists w, c :: s = w ++ s1 /\ forallb is_ws w = true /\ (w <> [] -> match s1 with [] => True | c1 :: _ => is_ws c1 = false end)).
  { unfold s1. destruct (hd _ _); [exists []; repeat split; congruence|]. destruct (skip_split (c :: s)) as (w & E & W). exists w.
    split; [exact E|]. split; [exact W|]. intros _. apply skip_head. }
  assert (E1 : exists st1, (if hd false (p_preserve d) then Ok st else consume_spaces st) = Ok st1 /\ mem st1 s1 /\
                (still st st1 \/ (s_idx st1 = 0 /\ s1 = []))).
  { unfold s1. destruct (hd _ _); [exists st; repeat split; auto; left; apply still_refl|]. apply spaces_ok, M. }
  clearbody s1. destruct E1 as (st1 & E1 & M1 & K1). cbv zeta. rewrite E1. cbn [bind]. clear E1.
  destruct (peek_ok st1 s1 (s2b "<?") M1 ltac:(nf) ltac:(discriminate)) as (st2 & E2 & M2 & K2 & _).
  rewrite E2. cbn [bind]. rewrite insp_pos.
  destruct (peek_ok st2 s1 (s2b "<!--") M2 ltac:(nf) ltac:(discriminate)) as (st3 & E3 & M3 & K3 & _).
  assert (E23 : exists st4, (if match after (s2b "<?") s1 with Some _ => true | None => false end then Ok (st2, 0)
        else stream_peek st2 (s2b "<!--")) = Ok (st4, if starts (s2b "<?") s1 then 0 else insp s1 (s2b "<!--")) /\
        mem st4 s1 /\ kept 4 s1 st1 st4).
  { unfold starts. destruct (after (s2b "<?") s1); [exists st2|exists st3; rewrite E3]; (split; [reflexivity|]); (split; [assumption|]).
    - eapply kept_more; [exact K2|]. simpl. lia.
    - exact (kept_trans _ _ _ _ _ _ K2 K3). }
  destruct E23 as (st4 & E4 & M4 & K4). rewrite E4. cbn [bind]. clear E2 E3 E4 M2 M3 K2 K3 st2 st3.
  fold (starts (s2b "<?") s1).
  replace (starts (s2b "<?") s1 || (0 <? (if starts (s2b "<?") s1 then 0 else insp s1 (s2b "<!--"))))
    with (starts (s2b "<?") s1 || starts (s2b "<!--") s1)
    by (destruct (starts (s2b "<?") s1); [reflexivity|rewrite insp_pos; reflexivity]).
  destruct (_ || _) eqn:Hs.
  { pose proof (comments_ok st4 s1 d M4) as C.
    destruct (a_comments s1 d) as [[s2 d2]|] eqn:Ca; [|cbn [sim] in C; rewrite C; reflexivity].
    destruct C as (st5 & C & M5). rewrite C. cbn [bindo].
    pose proof (a_comments_progress _ _ _ _ Hh Hs Ca). pose proof (a_comments_suffix _ _ _ _ Ca) as [_ Hp]. apply (header_comments (length s1)) in Ca; [|lia].
    rewrite (a_content_fuel (length s2) _ (S (length s2))) by (congruence || lia).
    apply IH; [exact M5|apply head_pos, Hp|lia|lia|congruence]. }
  destruct (peek_ok st4 s1 (s2b "</") M4 ltac:(nf) ltac:(discriminate)) as (st5 & E5 & M5 & K5 & MA5).
  rewrite E5. cbn [bind]. rewrite insp_pos. unfold rest_of in MA5.
  destruct (after (s2b "</") s1) as [s2|] eqn:A.
  { pose proof (after_shorter (s2b "</") _ _ ltac:(discriminate) A). specialize (MA5 ltac:(discriminate)).
    pose proof (close_ok _ _ d MA5) as C.
    destruct (a_close s2 d) as [s3|] eqn:Cl; [|rewrite C; reflexivity]. pose proof (ends_pos _ _ _ MA5 (a_close_tag _ _ _ Cl)) as Hp. apply a_close_len in Cl.
    destruct C as (st6 & C & M6). rewrite C.
    destruct (p_stack d) as [|nd [|nd' r]]; [reflexivity|exists st6; auto|].
    fold (closed nd (nd' :: r) d).
    rewrite (a_content_fuel (length s3) _ (S (length s3))) by (rewrite ?header_closed; congruence || lia).
    apply IH; [exact M6|exact Hp|lia|lia|rewrite header_closed; congruence]. }
  destruct (peek_ok st5 s1 (s2b "<![CDATA[") M5 ltac:(nf) ltac:(discriminate)) as (st6 & E6 & M6 & K6 & MA6).
  rewrite E6. cbn [bind]. rewrite insp_pos. unfold rest_of in MA6.
  destruct (after (s2b "<![CDATA[") s1) as [s2|] eqn:A2.
  { pose proof (after_shorter (s2b "<![CDATA[") _ _ ltac:(discriminate) A2). specialize (MA6 ltac:(discriminate)).
    pose proof (get_until_ok _ _ true [s2b "]]>"] MA6 ltac:(gc)) as U.
    destruct (until [s2b "]]>"] s2) as [[[[t it] x] s3]|] eqn:Un; [|destruct U as (stn & U & _); rewrite U; reflexivity].
    destruct U as (st7 & U & M7). rewrite U. cbn [bind].
    pose proof (until_shorter [s2b "]]>"] s2 _ _ _ _ ltac:(gc) Un).
    rewrite (a_content_fuel (length s3) _ (S (length s3))) by (rewrite ?header_item; congruence || lia).
    pose proof (until_one (s2b "]]>") _ _ _ _ _ ltac:(split; [nf|discriminate]) eq_refl Un) as Ue.
    apply IH; [exact M7| |lia|lia|rewrite header_item; congruence].
    apply (ends_pos _ _ _ MA6). exists (t ++ s2b "]]"). rewrite Ue, <- app_assoc. reflexivity. }
  destruct (peek_ok st6 s1 (s2b "<") M6 ltac:(nf) ltac:(discriminate)) as (st7 & E7 & M7 & K7 & MA7).
  rewrite E7. cbn [bind]. rewrite insp_pos. unfold rest_of in MA7.
  destruct (after (s2b "<") s1) as [s2|] eqn:A3.
  { pose proof (after_shorter (s2b "<") _ _ ltac:(discriminate) A3). specialize (MA7 ltac:(discriminate)).
    pose proof (node_ok _ _ d MA7) as C.
    destruct (a_node s2 d) as [[[s3 d3] e3]|] eqn:Cn; [|cbn [sim2] in C; rewrite C; reflexivity].
    destruct C as (st8 & C & M8). rewrite C. cbn [bindo].
    pose proof (a_node_len _ _ _ _ _ Cn). pose proof (ends_pos _ _ _ MA7 (a_node_tag _ _ _ _ _ Cn)) as Hp. apply header_a_node in Cn.
    rewrite (a_content_fuel (length s3) _ (S (length s3))) by (congruence || lia).
    apply IH; [exact M8|exact Hp|lia|lia|congruence]. }
  assert (M8 : mem (if s_idx st <? s_idx st7 then stream_move st7 (s_idx st) else st7) (c :: s) \/
    (s_idx st7 = 0 /\ s1 = [])).
  { pose proof (kept_trans _ _ _ _ _ _ (kept_trans _ _ _ _ _ _ (kept_trans _ _ _ _ _ _ K4 K5) K6) K7) as KK.
    clear K4 K5 K6 K7. destruct S1 as (w & S1 & Ww & Wn).
    destruct K1 as [K1|[I1 ->]].
    2: { right. split; [|reflexivity]. destruct KK as [[_ KI]|(KI & _)]; congruence. }
    destruct KK as [[KS KI]|(KI & KL & KM)].
    - left. pose proof (still_trans _ _ _ K1 KS) as (Sk & Sb & Ss). clear K1 KS.
      destruct (Z.ltb_spec (s_idx st) (s_idx st7)) as [Lt|Ge].
      + eapply (mem_move st _ st7 s1 w); try eassumption; congruence.
      + pose proof M as (pre & post & K & B & Pn & I & Zs). pose proof M7 as (pre' & post' & K' & B' & Pn' & I' & Zs').
        rewrite Sb, B in B'. rewrite Ss, Zs in Zs'.
        assert (w = []).
        { rewrite S1 in Zs'. rewrite app_length in Zs'. destruct w; [reflexivity|]. simpl length in Zs'. lia. }
        subst w. cbn [app] in S1. rewrite S1. exact M7.
    - destruct s1 as [|c1 s1]; [right; auto|]. left.
      assert (w = []) as ->.
      { destruct w as [|w0 w]; [reflexivity|]. exfalso. specialize (Wn ltac:(discriminate)). cbn in Wn.
        pose proof M as (pre & post & K & _ & _ & I & Zs).
        destruct K as [[_ K]|[_ C]]; [apply KM; destruct K1 as (K1 & _); congruence|].
        assert (Ne : w0 :: w <> []) by discriminate. destruct (exists_last Ne) as (u & b & Eu). rewrite Eu in *.
        rewrite S1, <- app_assoc in C, Ps. cbn [app] in C, Ps.
        assert (c1 <> "<"%char). { intros ->. cbn in A3. discriminate. }
        pose proof (pos_use u b c1 s1 C Ps Ww Wn ltac:(assumption)). cbn in KL. lia. }
      cbn [app] in S1. rewrite S1. replace (s_idx st <? s_idx st7) with false; [exact M7|].
      symmetry. apply Z.ltb_ge. rewrite KI. destruct M as (pre & post & _ & _ & _ & I & _). rewrite I. lia. }
  destruct M8 as [M8|[I7 ->]].
  2: { destruct S1 as (w & S1 & Ww & _). rewrite app_nil_r in S1. rewrite S1 in *.
       rewrite until_white by exact Ww.
       replace (s_idx st <? s_idx st7) with false
         by (symmetry; apply Z.ltb_ge; rewrite I7; destruct M as (pre & post & _ & _ & _ & I & _); rewrite I; lia).
       pose proof (get_until_ok _ _ false [s2b "<"] M7 ltac:(gc)) as U. cbn [until] in U.
       destruct U as (stn & U & _). rewrite U. reflexivity. }
  pose proof (get_until_ok _ _ false [s2b "<"] M8 ltac:(gc)) as U.
  destruct (until [s2b "<"] (c :: s)) as [[[[t it] x] s3]|] eqn:Un; [|destruct U as (stn & U & _); rewrite U; reflexivity].
  destruct U as (st9 & U & M9). rewrite U. cbn [bind].
  pose proof (text_progress _ _ _ _ _ _ (N1 eq_refl) Un) as [P _].
  rewrite (a_content_fuel (length x) _ (S (length x))) by (rewrite ?header_item; congruence || lia).
  apply IH; [exact M9| |lia|lia|rewrite header_item; congruence].
  apply until_split in Un; [|gc]. destruct Un as (m & _ & _ & _ & St). unfold stop_at in St. cbn [existsb] in St.
  replace (ws_chunk (s2b "<")) with false in St by reflexivity. cbn [orb andb hit] in St.
  replace (ws_chunk (s2b "<")) with false in St by reflexivity.
  destruct (after (s2b "<") x) as [r|] eqn:Ar; [|discriminate]. apply after_Some in Ar. rewrite Ar. apply pos_solid. reflexivity.
Qed.
End B.
