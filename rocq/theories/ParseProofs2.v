(** The whole parser on texts: the declaration at the start, then the root node. *)
From Verif Require Import Prelude StrModel StrSpec StrProofs EscProofs StrProofs2 StrProofs3 AttrModel AttrSpec AttrProofs
  TreeModel StreamModel StreamProofs ParseModel ParseProofs.
Open Scope Z_scope.
Local Arguments Z.of_nat : simpl never.
Local Arguments Z.to_nat : simpl never.
Local Arguments Z.add : simpl never.
Local Arguments Z.sub : simpl never.
Local Arguments Z.eqb : simpl never.
Local Arguments Z.ltb : simpl never.
Local Arguments Z.leb : simpl never.

Section C.
Context {cx : ctx}.
Definition several (s c1 c2 : bytes) : Z :=
  match after c1 s with
  | Some _ => 1
  | None => match after c2 s with
            | Some _ => 2
            | None => if (length s <? length c1)%nat || (length s <? length c2)%nat then -1 else 0
            end
  end.
Definition rest2 (s c1 c2 : bytes) : bytes :=
  match after c1 s with Some r => r | None => rest_of s c2 end.
Lemma several_ok st s c1 c2 : mem st s -> good_chunk c1 -> good_chunk c2 ->
  exists st', stream_inspect_several st [c1; c2] = Ok (st', several s c1 c2) /\ mem st' (rest2 s c1 c2).
Proof.
  intros M [G1 N1] [G2 N2]. unfold stream_inspect_several. cbn [inspect_several].
  destruct (inspect_ok st s c1 M G1 N1) as (st1 & E1 & M1). rewrite E1. cbn [bind].
  unfold several, rest2, insp, rest_of in *. destruct (after c1 s) as [r|].
  - exists st1. auto.
  - destruct (inspect_ok st1 s c2 M1 G2 N2) as (st2 & E2 & M2). unfold insp, rest_of in *.
    destruct (length s <? length c1)%nat;
      [change (-1 =? -1) with true | change (0 =? -1) with false; change (0 =? 0) with true]; cbv iota; rewrite E2; cbn [bind].
    + destruct (after c2 s); [exists st2; auto|]. destruct (length s <? length c2)%nat; exists st2; auto.
    + destruct (after c2 s); [exists st2; auto|]. destruct (length s <? length c2)%nat; exists st2; auto.
Qed.

Definition V1 : bytes := ["034"; "1"; "."; "0"; "034"]%char.
Definition V2 : bytes := ["039"; "1"; "."; "0"; "039"]%char.
Definition BOM : bytes := ["239"; "187"; "191"]%char.
Definition Q1 (s : bytes) : bytes := s ++ ["034"%char].
Definition Q2 (s : bytes) : bytes := s ++ ["'"%char].

(** [name="value"] in the declaration: [None] after an error, otherwise the value if
    it is there *)
Definition a_field (name s : bytes) : option (option bytes * bytes) :=
  if 0 <? several s (Q1 name) (Q2 name) then
    match until quotes (rest2 s (Q1 name) (Q2 name)) with
    | None => None
    | Some (e, _, _, s) => Some (Some e, s)
    end
  else Some (None, rest2 s (Q1 name) (Q2 name)).

Definition a_decl (s : bytes) (d : pdoc) : res (option (bytes * pdoc)) :=
  match after (s2b "xml") s with
  | None => Ok None
  | Some s =>
    let s := skip s in
    if insp s (s2b "version=") =? 0 then Ok None
    else
      let s := skip (rest_of s (s2b "version=")) in
      if several s V1 V2 =? 0 then Ok None
      else
        match a_field (s2b "encoding=") (skip (rest2 s V1 V2)) with
        | None => Ok None
        | Some (e, s) =>
          let d := match e with None => d | Some e => with_encoding d (Some (cstr e)) end in
          match a_field (s2b "standalone=") (skip s) with
          | None => Ok None
          | Some (e, s) =>
            d <- match e with None => Ok d | Some e => y <- is_yes e ;; Ok (with_standalone d y) end ;;
            match after (s2b "?>") (skip s) with
            | None => Ok None
            | Some s => Ok (a_comments s d)
            end
          end
        end
  end.
Definition a_doctype (s : bytes) (d : pdoc) : option (bytes * pdoc) :=
  match after (s2b "<!DOCTYPE") s with
  | None => Some (s, d)
  | Some s => a_comments (match until [s2b ">"] s with Some (_, _, _, s) => s | None => s end) d
  end.
Definition a_header (s : bytes) (d : pdoc) : res (option (bytes * pdoc)) :=
  let s := rest_of s BOM in
  x <- (if insp s (s2b "<?") =? 0 then Ok (Some (s, d)) else a_decl (rest_of s (s2b "<?")) d) ;;
  match x with
  | None => Ok None
  | Some (s, d) => Ok (a_doctype s d)
  end.
Definition a_body (s : bytes) (d : pdoc) : option (bytes * pdoc) :=
  match a_node s (with_header d) with
  | None => None
  | Some (s, d, true) => Some (s, d)
  | Some (s, d, false) => a_content (S (length s)) s d
  end.
Definition a_done (d : pdoc) : option doc :=
  match p_stack d with
  | [] => Some (Doc (p_root d) (p_encoding d) (p_standalone d) (p_pis d))
  | _ => None
  end.
Definition a_parse (s : bytes) : res (option doc) :=
  x <- a_header s pdoc_new ;;
  match x with
  | None => Ok None
  | Some (s, d) => Ok (match a_body s d with None => None | Some (_, d) => a_done d end)
  end.

Definition simr {A} (r : res (option (stream * A))) (o : res (option (bytes * A))) : Prop :=
  match o with
  | Ok x => sim r x
  | UB => r = UB
  | NoFuel => False
  end.

Lemma good_Q1 s : nul_free s -> good_chunk (Q1 s).
Proof. intros H. split; [apply nul_free_app; split; [exact H|nf]|]. unfold Q1. destruct s; discriminate. Qed.
Lemma good_Q2 s : nul_free s -> good_chunk (Q2 s).
Proof. intros H. split; [apply nul_free_app; split; [exact H|nf]|]. unfold Q2. destruct s; discriminate. Qed.
Lemma good_lit s : forallb (fun c => negb (Ascii.eqb c NUL)) s = true -> s <> [] -> good_chunk s.
Proof. intros H N. split; [apply nul_free_lit; exact H|exact N]. Qed.
Lemma several_pos s c1 c2 : (0 <? several s c1 c2) = true -> exists r, rest2 s c1 c2 = r /\ (s = c1 ++ r \/ s = c2 ++ r).
Proof.
  unfold several, rest2, rest_of. destruct (after c1 s) eqn:A.
  - apply after_Some in A. eauto.
  - destruct (after c2 s) eqn:A2; [apply after_Some in A2; eauto|]. destruct (_ || _); discriminate.
Qed.

Lemma cs_holds e : holds (cs e) (cstr e).
Proof.
  split; [apply cstr_nul_free|]. unfold cs. induction e as [|c e (r & IH)]; simpl; [exists []; reflexivity|].
  destruct (Ascii.eqb_spec c NUL) as [->|N]; [exists (e ++ [NUL]); reflexivity|]. exists r. rewrite IH. reflexivity.
Qed.
Lemma single_no_straddle c s : no_straddle [c] s.
Proof. intros a b x E1 E2. destruct b as [|y b]; [auto|]. destruct b; [|discriminate]. destruct x; [auto|discriminate]. Qed.
Lemma pieces_total v : forall n s, (length s <= n)%nat -> exists x l, pieces [v] s (x :: l).
Proof.
  induction n as [|n IH]; intros s L.
  - destruct s; [|simpl in L; lia]. eexists _, _. constructor.
  - destruct s as [|c s]; [eexists _, _; constructor|].
    destruct (cut_at [v] (c :: s)) as [[p r]|] eqn:C.
    + assert (length r <= n)%nat.
      { cbn [cut_at] in C. destruct v as [|y v]; [discriminate|]. destruct (after (y :: v) (c :: s)) eqn:A; [|discriminate].
        inversion C; subst. apply after_len in A. simpl in *. lia. }
      destruct (IH r H) as (x & l & P). eexists _, _. eapply pieces_cut; eassumption.
    + destruct (IH s ltac:(simpl in L; lia)) as (x & l & P). eexists _, _. eapply pieces_char; eassumption.
Qed.
Lemma configure_ok d : configure_encoding d = Ok tt.
Proof.
  unfold configure_encoding. destruct (p_encoding d) as [e|]; [|reflexivity].
  destruct (trim_ok (cs e) (cstr e) (cs_holds e)) as (b1 & t & E1 & _ & H1 & _). rewrite E1. cbn [bind].
  destruct (pieces_total (s2b "-") (length t) t (le_n _)) as (x & l & P).
  destruct (remove_all_ok b1 t (s2b "-") (x :: l) H1 ltac:(nf) (single_no_straddle _ _) P) as (b2 & E2 & H2 & _).
  rewrite E2. cbn [bind].
  destruct (pieces_total (s2b "_") (length (concat (x :: l))) (concat (x :: l)) (le_n _)) as (x' & l' & P').
  destruct (remove_all_ok b2 _ (s2b "_") (x' :: l') H2 ltac:(nf) (single_no_straddle _ _) P') as (b3 & E3 & [H3 [r ->]] & _).
  rewrite E3. cbn [bind]. rewrite common_to_ok by assumption. reflexivity.
Qed.


Lemma bom_ok st s post : mem st s -> s_idx st = 0 -> s_buf st = s ++ NUL :: post ->
  exists st', (bom <- stream_check st ["239"; "187"; "191"]%char ;;
     Ok (if (bom : bool) then stream_move st 3 else st)) = Ok st' /\ mem st' (rest_of s BOM).
Proof.
  intros M I0 B0. unfold stream_check. rewrite B0, I0. change (s ++ NUL :: post) with ([] ++ s ++ NUL :: post).
  rewrite ptr_at_app by reflexivity. cbn [bind app].
  change ["239"; "187"; "191"]%char with BOM. rewrite (memcmp_cs_end BOM s post (Z.of_nat (length BOM))) by (try reflexivity; try discriminate; nf). cbn [bind].
  eexists. split; [reflexivity|]. unfold rest_of. destruct (after BOM s) as [r|] eqn:A; [|exact M].
  apply after_Some in A. subst s. change (stream_move st 3) with (set_pos st 3 0).
  apply (mem_advance st BOM); [exact M|]. rewrite I0. reflexivity.
Qed.

Lemma decl_ok st s d : mem st s ->
  simr ('(st, v) <- stream_inspect st (s2b "xml") ;;
       if negb (0 <? v) then Ok None
       else
         st <- consume_spaces st ;;
         '(st, v) <- stream_inspect st (s2b "version=") ;;
         if v =? 0 then Ok None
         else
           st <- consume_spaces st ;;
           '(st, v) <- stream_inspect_several st
              [["034"; "1"; "."; "0"; "034"]%char; ["039"; "1"; "."; "0"; "039"]%char] ;;
           if v =? 0 then Ok None
           else
             st <- consume_spaces st ;;
             '(st, v) <- stream_inspect_several st (quoted (s2b "encoding=")) ;;
             '(st, d) <-!
               (if 0 <? v then
                  '(st, o) <- get_until st true quotes ;;
                  match o with
                  | None => Ok None
                  | Some (e, _) => Ok (Some (st, with_encoding d (Some (cstr e))))
                  end
                else Ok (Some (st, d))) ;;
             st <- consume_spaces st ;;
             '(st, v) <- stream_inspect_several st (quoted (s2b "standalone=")) ;;
             '(st, d) <-!
               (if 0 <? v then
                  '(st, o) <- get_until st true quotes ;;
                  match o with
                  | None => Ok None
                  | Some (e, _) => y <- is_yes e ;; Ok (Some (st, with_standalone d y))
                  end
                else Ok (Some (st, d))) ;;
             st <- consume_spaces st ;;
             '(st, v) <- stream_inspect st (s2b "?>") ;;
             if negb (0 <? v) then Ok None
             else consume_comments st d) (a_decl s d).
Proof.
  intros M. unfold a_decl.
  destruct (inspect_ok st s (s2b "xml") M ltac:(nf) ltac:(discriminate)) as (st1 & E1 & M1).
  rewrite E1. cbn [bind]. rewrite insp_pos. unfold rest_of in M1. destruct (after (s2b "xml") s) as [s1|]; [|reflexivity].
  cbn [negb]. clear E1. cbv zeta.
  destruct (spaces_ok _ _ M1) as (st2 & E2 & M2 & _). rewrite E2. cbn [bind]. clear E2.
  destruct (inspect_ok st2 _ (s2b "version=") M2 ltac:(nf) ltac:(discriminate)) as (st3 & E3 & M3).
  rewrite E3. cbn [bind]. clear E3. destruct (insp _ _ =? 0); [reflexivity|].
  destruct (spaces_ok _ _ M3) as (st4 & E4 & M4 & _). rewrite E4. cbn [bind]. clear E4.
  destruct (several_ok st4 _ V1 V2 M4 ltac:(split; [nf|discriminate]) ltac:(split; [nf|discriminate])) as (st5 & E5 & M5).
  match type of E5 with ?l = _ => match goal with |- context[stream_inspect_several st4 ?c] => change (stream_inspect_several st4 c) with l end end.
  rewrite E5. cbn [bind]. clear E5. destruct (several _ V1 V2 =? 0); [reflexivity|].
  destruct (spaces_ok _ _ M5) as (st6 & E6 & M6 & _). rewrite E6. cbn [bind]. clear E6.
  match type of M6 with mem _ ?x => set (s6 := x) in * end. clearbody s6. clear - M6.
  destruct (several_ok st6 s6 (Q1 (s2b "encoding=")) (Q2 (s2b "encoding=")) M6
     (good_Q1 (s2b "encoding=") ltac:(nf)) (good_Q2 (s2b "encoding=") ltac:(nf))) as (st7 & E7 & M7).
  match type of E7 with ?l = _ => match goal with |- context[stream_inspect_several st6 ?c] => change (stream_inspect_several st6 c) with l end end.
  rewrite E7. cbn [bind]. clear E7.
  assert (X : sim (if 0 <? several s6 (Q1 (s2b "encoding=")) (Q2 (s2b "encoding=")) then
                  '(st, o) <- get_until st7 true quotes ;;
                  match o with
                  | None => Ok None
                  | Some (e, _) => Ok (Some (st, with_encoding d (Some (cstr e))))
                  end
                else Ok (Some (st7, d)))
     (match a_field (s2b "encoding=") s6 with None => None | Some (e, s) =>
        Some (s, match e with None => d | Some e => with_encoding d (Some (cstr e)) end) end)).
  { unfold a_field. destruct (0 <? _); [|eexists; split; [reflexivity|exact M7]].
    pose proof (get_until_ok _ _ true quotes M7 ltac:(gc)) as U.
    destruct (until quotes _) as [[[[t it] x] y]|]; [|destruct U as (stn & U & _); rewrite U; reflexivity].
    destruct U as (st8 & U & M8). rewrite U. cbn [bind]. eexists. split; [reflexivity|exact M8]. }
  destruct (a_field (s2b "encoding=") s6) as [[e s8]|]; [|cbn [sim] in X; rewrite X; reflexivity].
  destruct X as (st8 & X & M8). rewrite X. cbn [bindo]. clear X M6 M7.
  match goal with |- context [match e with None => d | Some _ => _ end] =>
    set (d8 := match e with None => d | Some e => with_encoding d (Some (cstr e)) end) end. clearbody d8. clear - M8.
  destruct (spaces_ok _ _ M8) as (st9 & E9 & M9 & _). rewrite E9. cbn [bind]. clear E9.
  destruct (several_ok st9 _ (Q1 (s2b "standalone=")) (Q2 (s2b "standalone=")) M9
     (good_Q1 (s2b "standalone=") ltac:(nf)) (good_Q2 (s2b "standalone=") ltac:(nf))) as (st10 & E10 & M10).
  match type of E10 with ?l = _ => match goal with |- context[stream_inspect_several st9 ?c] => change (stream_inspect_several st9 c) with l end end.
  rewrite E10. cbn [bind]. clear E10.
  assert (Y : forall d9 s9 st9, mem st9 s9 ->
    sim (st <- consume_spaces st9 ;;
         '(st, v) <- stream_inspect st (s2b "?>") ;;
         if negb (0 <? v) then Ok None else consume_comments st d9)
      (match after (s2b "?>") (skip s9) with None => None | Some s => a_comments s d9 end)).
  { clear. intros d9 s9 st9 M9. destruct (spaces_ok _ _ M9) as (st & E & M & _). rewrite E. cbn [bind].
    destruct (inspect_ok st _ (s2b "?>") M ltac:(nf) ltac:(discriminate)) as (st1 & E1 & M1).
    rewrite E1. cbn [bind]. rewrite insp_pos. unfold rest_of in M1.
    destruct (after (s2b "?>") (skip s9)); [|reflexivity]. cbn [negb]. apply comments_ok, M1. }
  unfold a_field. destruct (0 <? _).
  - pose proof (get_until_ok _ _ true quotes M10 ltac:(gc)) as U.
    destruct (until quotes _) as [[[[t it] x] y]|]; [|destruct U as (stn & U & _); rewrite U; reflexivity].
    destruct U as (st11 & U & M11). rewrite U. cbn [bind].
    unfold is_yes. destruct (mem_sub (cs t) 0 3) as [y0| |] eqn:Em; cbn [bind bindo].
    + specialize (Y (with_standalone d8 (bytes_eqb y0 (s2b "yes"))) y st11 M11).
      destruct (after (s2b "?>") (skip y)); exact Y.
    + reflexivity.
    + clear - Em. unfold mem_sub in Em. destruct (_ || _ || _) in Em; discriminate.
  - cbn [bind bindo]. specialize (Y d8 _ st10 M10).
    destruct (after (s2b "?>") (skip (rest2 (skip s8) (Q1 (s2b "standalone=")) (Q2 (s2b "standalone="))))); exact Y.
Qed.

Lemma header_ok st s d post : mem st s -> s_idx st = 0 -> s_buf st = s ++ NUL :: post -> simr (parse_xml_header st d) (a_header s d).
Proof.
  intros M I B. unfold parse_xml_header, a_header. destruct (bom_ok st s post M I B) as (st1 & E1 & M1).
  destruct (stream_check st _) as [bom| |]; cbn [bind] in E1 |- *; [|discriminate..]. injection E1 as ->.
  cbv zeta. generalize dependent (rest_of s BOM). clear s M B. intros s M.
  destruct (inspect_ok st1 s (s2b "<?") M ltac:(nf) ltac:(discriminate)) as (st2 & E2 & M2).
  rewrite E2. cbn [bind]. clear E2.
  assert (Z : forall st s d, mem st s ->
    sim (_ <- configure_encoding d ;;
  '(st, v) <- stream_inspect st (s2b "<!DOCTYPE") ;;
  if 0 <? v then
    '(st, _) <- get_until_ref st true [s2b ">"] ;;
    consume_comments st d
  else Ok (Some (st, d))) (a_doctype s d)).
  { clear. intros st s d M. rewrite configure_ok. cbn [bind]. unfold a_doctype.
    destruct (inspect_ok st s (s2b "<!DOCTYPE") M ltac:(nf) ltac:(discriminate)) as (st2 & E2 & M2).
    rewrite E2. cbn [bind]. rewrite insp_pos. unfold rest_of in M2. destruct (after (s2b "<!DOCTYPE") s) as [s2|].
    - pose proof (get_until_ref_ok _ _ [s2b ">"] M2 ltac:(gc)) as U.
      destruct (until [s2b ">"] s2) as [[[[t it] x] y]|].
      + destruct U as (st3 & U & M3). rewrite U. cbn [bind]. apply comments_ok, M3.
      + destruct U as (st3 & U & M3). rewrite U. cbn [bind]. apply comments_ok, M3.
    - eexists. split; [reflexivity|exact M2]. }
  pose proof (decl_ok _ _ d M2) as D.
  destruct (insp s (s2b "<?") =? 0) eqn:In.
  - cbn [bind bindo]. replace (rest_of s (s2b "<?")) with s in M2; [apply Z, M2|].
    unfold insp, rest_of in *. destruct (after _ _); [discriminate|reflexivity].
  - match type of D with simr ?x _ => set (X := x) in * end. clearbody X.
    destruct (a_decl (rest_of s (s2b "<?")) d) as [[[s3 d3]|]| |]; cbn [simr sim] in D.
    + destruct D as (st3 & -> & M3). cbn [bind bindo]. apply Z, M3.
    + rewrite D. reflexivity.
    + rewrite D. reflexivity.
    + contradiction.
Qed.

Lemma header_with_header d : p_header (with_header d) = true.
Proof. reflexivity. Qed.

Lemma parse_common_ok st content post : mem st content -> s_idx st = 0 -> s_buf st = content ++ NUL :: post ->
  parse_common st = a_parse content.
Proof.
  intros M I B. unfold parse_common, a_parse.
  pose proof (header_ok _ _ pdoc_new post M I B) as H.
  destruct (a_header content pdoc_new) as [[[s d]|]| |]; cbn [simr sim] in H.
  - destruct H as (st1 & -> & M1). cbn [bind]. unfold a_body.
    pose proof (node_ok _ _ (with_header d) M1) as N.
    destruct (a_node s (with_header d)) as [[[s2 d2] e]|] eqn:An; [|cbn [sim2] in N; rewrite N; reflexivity].
    destruct N as (st2 & -> & M2). cbn [bindo]. destruct e.
    + cbn [bindo]. unfold a_done. destruct (p_stack d2); reflexivity.
    + pose proof (mem_turns _ _ M2).
      pose proof (content_loop_ok (length s2) s2 st2 d2 (turns st2) M2 (ends_pos _ _ _ M1 (a_node_tag _ _ _ _ _ An)) ltac:(lia) ltac:(lia)
        ltac:(rewrite (header_a_node _ _ _ _ _ An); reflexivity)) as C.
      destruct (a_content _ s2 d2) as [[s3 d3]|]; [|cbn [sim] in C; rewrite C; reflexivity].
      destruct C as (st3 & -> & M3). cbn [bindo]. unfold a_done. destruct (p_stack d3); reflexivity.
  - rewrite H. reflexivity.
  - rewrite H. reflexivity.
  - contradiction.
Qed.
Theorem parse_file_ok content : calmly content -> (length content <= Z.to_nat buffer_size)%nat ->
  doc_parse_file content = a_parse content.
Proof.
  intros C L. destruct (mem_file content C L) as (st & post & E & M & I & B). unfold doc_parse_file. rewrite E. cbn [bind].
  apply (parse_common_ok _ _ post M I B).
Qed.
End C.
Theorem parse_ok content : doc_parse content = a_parse content.
Proof. apply (parse_common_ok _ _ [] (mem_new content)); reflexivity. Qed.
