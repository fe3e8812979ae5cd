(** The parser with Babel as a function of the text: the whole. *)
From Coq Require Import NArith.
From Verif Require Import Prelude Arr StrModel StrSpec StrProofs EscProofs StrProofs2 StrProofs3 AttrModel TreeModel
  StreamModel StreamProofs ParseModel ParseProofs ParseProofs2 XmlSpec BabelModel BabelTables BabelSpec BabelExec BabelProofs BabelProofs2 BabelProofs3
  BdocModel BdocSpec BdocProofs BdocProofs2.
Open Scope Z_scope.
Open Scope list_scope.

Definition decl_block (st : stream) (d : pdoc) : res (option (stream * pdoc)) :=
       '(st, v) <- stream_inspect st (s2b "xml") ;;
       if negb (0 <? v) then Ok None
       else
         st <- consume_spaces st ;;
         '(st, v) <- stream_inspect st (s2b "version=") ;;
         if v =? 0 then Ok None
         else
           st <- consume_spaces st ;;
           '(st, v) <- stream_inspect_several st
              [["034"; "1"; "."; "0"; "034"]%char; ["039"; "1"; "."; "0"; "039"]%char] ;;
           if v =? 0 then Ok None
           else
             st <- consume_spaces st ;;
             '(st, v) <- stream_inspect_several st (quoted (s2b "encoding=")) ;;
             '(st, d) <-!
               (if 0 <? v then
                  '(st, o) <- get_until st true quotes ;;
                  match o with
                  | None => Ok None
                  | Some (e, _) => Ok (Some (st, with_encoding d (Some (cstr e))))
                  end
                else Ok (Some (st, d))) ;;
             st <- consume_spaces st ;;
             '(st, v) <- stream_inspect_several st (quoted (s2b "standalone=")) ;;
             '(st, d) <-!
               (if 0 <? v then
                  '(st, o) <- get_until st true quotes ;;
                  match o with
                  | None => Ok None
                  | Some (e, _) => y <- is_yes e ;; Ok (Some (st, with_standalone d y))
                  end
                else Ok (Some (st, d))) ;;
             st <- consume_spaces st ;;
             '(st, v) <- stream_inspect st (s2b "?>") ;;
             if negb (0 <? v) then Ok None
             else consume_comments st d.
Lemma fixed_decl st d st' d' : decl_block st d = Ok (Some (st', d')) -> fixed st st'.
Proof.
  unfold decl_block. intros H.
  apply bind_ok in H. destruct H as ([st1 v1] & E1 & H). apply fixed_inspect in E1. destruct (negb _); [discriminate|].
  apply bind_ok in H. destruct H as (st2 & E2 & H). apply fixed_spaces in E2.
  apply bind_ok in H. destruct H as ([st3 v3] & E3 & H). apply fixed_inspect in E3. destruct (v3 =? 0); [discriminate|].
  apply bind_ok in H. destruct H as (st4 & E4 & H). apply fixed_spaces in E4.
  apply bind_ok in H. destruct H as ([st5 v5] & E5 & H). apply fixed_several in E5. destruct (v5 =? 0); [discriminate|].
  apply bind_ok in H. destruct H as (st6 & E6 & H). apply fixed_spaces in E6.
  apply bind_ok in H. destruct H as ([st7 v7] & E7 & H). apply fixed_several in E7.
  apply bindo_ok in H. destruct H as ([st8 d8] & E8 & H).
  assert (F8 : fixed st7 st8).
  { destruct (0 <? v7); [|injection E8 as <- <-; apply fixed_refl]. apply bind_ok in E8. destruct E8 as ([st0 o] & E0 & H0).
    destruct o as [[e m]|]; [|discriminate]. injection H0 as <- <-. eapply fixed_get, E0. }
  apply bind_ok in H. destruct H as (st9 & E9 & H). apply fixed_spaces in E9.
  apply bind_ok in H. destruct H as ([st10 v10] & E10 & H). apply fixed_several in E10.
  apply bindo_ok in H. destruct H as ([st11 d11] & E11 & H).
  assert (F11 : fixed st10 st11).
  { destruct (0 <? v10); [|injection E11 as <- <-; apply fixed_refl]. apply bind_ok in E11. destruct E11 as ([st0 o] & E0 & H0).
    destruct o as [[e m]|]; [|discriminate]. apply bind_ok in H0. destruct H0 as (y & _ & H0). injection H0 as <- <-. eapply fixed_get, E0. }
  apply bind_ok in H. destruct H as (st12 & E12 & H). apply fixed_spaces in E12.
  apply bind_ok in H. destruct H as ([st13 v13] & E13 & H). apply fixed_inspect in E13. destruct (negb _); [discriminate|].
  apply fixed_comments in H. repeat (eapply fixed_trans; [eassumption|]). apply fixed_refl.
Qed.
Definition doctype_block (st : stream) (d : pdoc) : res (option (stream * pdoc)) :=
  '(st, v) <- stream_inspect st (s2b "<!DOCTYPE") ;;
  if 0 <? v then
    '(st, _) <- get_until_ref st true [s2b ">"] ;;
    consume_comments st d
  else Ok (Some (st, d)).
Lemma doctype_ok st s d : mem st s -> sim (doctype_block st d) (a_doctype s d).
Proof.
  intros M. unfold doctype_block, a_doctype.
  destruct (inspect_ok st s (s2b "<!DOCTYPE") M ltac:(nf) ltac:(discriminate)) as (st2 & E2 & M2).
  rewrite E2. cbn [bind]. rewrite insp_pos. unfold rest_of in M2. destruct (after (s2b "<!DOCTYPE") s) as [s2|].
  - pose proof (get_until_ref_ok _ _ [s2b ">"] M2 ltac:(gc)) as U.
    destruct (until [s2b ">"] s2) as [[[[t it] x] y]|]; destruct U as (st3 & U & M3); rewrite U; cbn [bind]; apply comments_ok, M3.
  - eexists. split; [reflexivity|exact M2].
Qed.
Lemma babel_header_eq g st d : babel_header g st d =
  (st <- (bom <- stream_check st ["239"; "187"; "191"]%char ;; Ok (if (bom : bool) then stream_move st 3 else st)) ;;
   '(st, v) <- stream_inspect st (s2b "<?") ;;
   '(st, d) <-! (if v =? 0 then Ok (Some (st, d)) else decl_block st d) ;;
   '(st, d) <-! doc_configure g st d ;;
   doctype_block st d).
Proof. unfold babel_header. destruct (stream_check st _) as [b| |]; reflexivity. Qed.
Definition b_rest (s : bytes) (d : pdoc) : option (bytes * pdoc) := match b_configure s d with None => None | Some (s, d) => a_doctype s d end.
Lemma rest_ok g st s d : mem st s -> sized st -> sim ('(st, d) <-! doc_configure g st d ;; doctype_block st d) (b_rest s d).
Proof.
  intros M Sz. unfold b_rest. pose proof (doc_configure_ok g st s d M Sz) as C. destruct (b_configure s d) as [[s' d']|].
  - destruct C as (st' & -> & M'). cbn [bindo]. apply doctype_ok, M'.
  - cbn [sim] in C. rewrite C. reflexivity.
Qed.
Lemma babel_header_ok g st st1 s d : (bom <- stream_check st ["239"; "187"; "191"]%char ;; Ok (if (bom : bool) then stream_move st 3 else st)) = Ok st1 ->
  mem st1 s -> sized st1 ->
  simr (babel_header g st d) (x <- b_head s d ;; match x with None => Ok None | Some (s, d) => Ok (b_rest s d) end).
Proof.
  intros E M Sz. rewrite babel_header_eq, E. cbn [bind]. unfold b_head.
  destruct (inspect_ok st1 s (s2b "<?") M ltac:(nf) ltac:(discriminate)) as (st2 & E2 & M2). pose proof (fixed_inspect _ _ _ _ E2) as F2.
  rewrite E2. cbn [bind]. assert (Sz2 : sized st2) by (eapply sized_fixed; eassumption).
  pose proof (decl_ok _ _ d M2) as D. change (simr (decl_block st2 d) (a_decl (rest_of s (s2b "<?")) d)) in D.
  destruct (insp s (s2b "<?") =? 0) eqn:In.
  - cbn [bind bindo]. replace (rest_of s (s2b "<?")) with s in M2; [apply (rest_ok g st2 s d M2 Sz2)|].
    unfold insp, rest_of in *. destruct (after _ _); [discriminate|reflexivity].
  - destruct (a_decl (rest_of s (s2b "<?")) d) as [[[s3 d3]|]| |]; cbn [simr sim] in D.
    + destruct D as (st3 & Ed & M3). rewrite Ed. cbn [bind bindo]. apply (rest_ok g st3 s3 d3 M3). eapply sized_fixed; [exact Sz2|eapply fixed_decl, Ed].
    + rewrite D. reflexivity.
    + rewrite D. reflexivity.
    + contradiction.
Qed.
Lemma babel_parse_any g content : babel_common g (stream_mem content) = b_parse content.
Proof.
  unfold b_parse, babel_common. pose proof (start_ok content) as S0. destruct (b_start content) as [s|].
  2: { rewrite S0. reflexivity. }
  destruct S0 as (st & e & st1 & -> & E1 & M1 & Sz1). cbn [bindo].
  pose proof (babel_header_ok g st st1 s pdoc_new E1 M1 Sz1) as H.
  assert (Bt : forall s d, b_tail s d = match a_doctype s d with None => None | Some (s, d) => match a_body s d with None => None | Some (_, d) => a_done d end end) by reflexivity.
  destruct (b_head s pdoc_new) as [[[s2 d2]|]| |]; cbn [bind] in H |- *; cbn [simr] in H.
  - unfold b_rest in H. destruct (b_configure s2 d2) as [[s3 d3]|]; [|cbn [sim] in H; rewrite H; reflexivity].
    rewrite Bt. destruct (a_doctype s3 d3) as [[s4 d4]|]; [|cbn [sim] in H; rewrite H; reflexivity].
    destruct H as (st4 & -> & M4). unfold a_body.
    pose proof (node_ok _ _ (with_header d4) M4) as N.
    destruct (a_node s4 (with_header d4)) as [[[s5 d5] em]|] eqn:An; [|cbn [sim2] in N; rewrite N; reflexivity].
    destruct N as (st5 & -> & M5). cbn [bindo]. destruct em.
    + cbn [bindo]. unfold a_done. destruct (p_stack d5); reflexivity.
    + pose proof (mem_turns _ _ M5).
      pose proof (content_loop_ok (length s5) s5 st5 d5 (turns st5) M5 Logic.I ltac:(lia) ltac:(lia)
        ltac:(rewrite (header_a_node _ _ _ _ _ An); reflexivity)) as C.
      destruct (a_content _ s5 d5) as [[s6 d6]|]; [|cbn [sim] in C; rewrite C; reflexivity].
      destruct C as (st6 & -> & M6). cbn [bindo]. unfold a_done. destruct (p_stack d6); reflexivity.
  - rewrite H. reflexivity.
  - rewrite H. reflexivity.
  - contradiction.
Qed.
Theorem babel_parse_ok content : babel_parse content = b_parse content.
Proof. apply babel_parse_any. Qed.
(** the plain parser in the same form *)
Lemma plain_parse content : doc_parse content =
  (x <- b_head (rest_of content BOM) pdoc_new ;; match x with None => Ok None | Some (s, d) => Ok (b_tail s d) end).
Proof.
  rewrite parse_ok. unfold a_parse, a_header, b_head, b_tail. cbv zeta.
  match goal with |- context [bind (if ?c then ?a else ?b) _] => set (X := if c then a else b) end.
  destruct X as [[[s d]|]| |]; cbn [bind]; try reflexivity.
  destruct (a_doctype s d) as [[s2 d2]|]; reflexivity.
Qed.
