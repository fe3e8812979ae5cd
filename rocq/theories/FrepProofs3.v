(** Parsing a file: the parser with its book returns when the parser returns (C60). *)
From Coq Require Import Permutation Lia.
From Verif Require Import Prelude StrModel StrSpec StrProofs AttrModel TreeModel StreamModel StreamProofs ParseModel ParseProofs ParseProofs2 XmlSpec
  FsafeProofs FsafeProofs2 FsafeProofs3.
From Verif Require Import RepModel RepSpec FrepSpec RepProofs RepProofs2 RepProofs3 RepProofs4 RepProofs5 RepProofs6 FwinProofs FrepProofs FrepProofs2.
Open Scope Z_scope.
Local Arguments Z.of_nat : simpl never.
Local Arguments Z.to_nat : simpl never.
Local Arguments Z.add : simpl never.

(** the parser with its book faults only where the parser does, and an error it tells is in the file *)
Definition tells (content : bytes) (r' : res (book * option doc)) (r : res (option doc)) : Prop :=
  match r' with
  | UB => r = UB
  | Ok (m, None) => told_in content m
  | _ => True
  end.
Lemma common_tells content w file st : fits content st ->
  (forall b, stream_check st ["239"; "187"; "191"]%char = Ok b -> b = true -> fits content (stream_move st 3)) ->
  tells content (parse_common (stream_new (book_new w) file) st) (ParseModel.parse_common st).
Proof.
  intros K Bom.
  assert (E : ParseModel.parse_common st = bindo (ParseModel.parse_xml_header st pdoc_new) (fun '(st, d) =>
     bindo (ParseModel.parse_node st (with_header d)) (fun '(st, d, is_empty) =>
     bindo (if (is_empty : bool) then Ok (Some (st, d)) else ParseModel.content_loop (turns st) st d) (fun '(_, d) =>
     match p_stack d with
     | [] => Ok (Some (Doc (p_root d) (p_encoding d) (p_standalone d) (p_pis d)))
     | _ => Ok None
     end)))).
  { unfold ParseModel.parse_common. destruct (ParseModel.parse_xml_header st pdoc_new) as [[[s0 d0]|]| |]; reflexivity. }
  rewrite E. clear E. unfold parse_common. cbv zeta.
  assert (H0 : still w false (link (doc_new (stream_new (book_new w) file)))) by (exists None; split; [discriminate|apply start_ok]).
  pose proof (header_frel (content := content) w _ st pdoc_new H0 K eq_refl Bom) as R.
  destruct (parse_xml_header _ st pdoc_new) as [[m1 [[sa da]|]]| |]; cbn [frel bindm] in R |- *; [|exact (proj2 R)|rewrite R; reflexivity|exact I].
  destruct R as (-> & S1 & Ka). cbn [bindo fst] in *.
  pose proof (node_frel (content := content) w m1 sa (with_header da) S1 Ka) as R.
  destruct (parse_node m1 sa _) as [[m2 [[[sb db] e]|]]| |]; cbn [frel bindm] in R |- *; [|exact (proj2 R)|rewrite R; reflexivity|exact I].
  destruct R as (-> & S2 & Kb). cbn [bindo]. unfold of3 in Kb. cbn [fst] in Kb.
  assert (R : frel content (still w false) fst (if (e : bool) then Ok (m2, Some (sb, db)) else content_loop (turns sb) m2 sb db)
    (if e then Ok (Some (sb, db)) else ParseModel.content_loop (turns sb) sb db)).
  { destruct e; [apply frel_same; trivial|apply (content_frel w); trivial]. }
  destruct (if (e : bool) then Ok (m2, Some (sb, db)) else content_loop (turns sb) m2 sb db) as [[m3 [[sc dc]|]]| |]; cbn [frel bindm] in R |- *; [|exact (proj2 R)|rewrite R; reflexivity|exact I].
  destruct R as (-> & (p & Np & H) & Kc). cbn [bindo fst] in *. destruct (p_stack dc) as [|n r].
  - destruct (finish_ok _ _ _ H Np) as (m' & R & _). destruct (unlink m3) as [m4| |]; cbn [bind] in R |- *; try discriminate.
    rewrite R. exact I.
  - match goal with |- context [fail m3 sc ?c ?t] => destruct (@fail_there content doc _ _ _ _ _ sc c t H Kc Np) as (m' & -> & T) end. exact T.
Qed.

Lemma file_tells w content : tells content (doc_parse_file w (Some content)) (ParseModel.doc_parse_file content).
Proof.
  unfold doc_parse_file, ParseModel.doc_parse_file. destruct (file_start content) as (st & x & f & k & E & N & I & B & Ec).
  pose proof (file_window _ _ E) as Wn. rewrite E. cbn [bind].
  assert (X : exactly content st) by (split; [exists content, (open f); exists x, f; auto|exact Wn]).
  apply common_tells; [apply exactly_fits; exact X|]. intros b Hb ->.
  pose proof N as (pre & post & K & B' & I' & Z & Lb & Ls & L64).
  unfold stream_check, ptr_at in Hb. rewrite I in Hb. change (0 <? 0) with false in Hb. cbn [orb] in Hb.
  destruct (Z.ltb_spec (Z.of_nat (length (s_buf st))) 0); [lia|]. cbn [bind skipn Z.to_nat] in Hb. unfold axl_memcmp, cs in Hb.
  change (Z.to_nat 0) with 0%nat in Hb. cbn [skipn] in Hb.
  rewrite memcmp_any in Hb by (try discriminate; try nf; cbn; lia).
  destruct (after ["239"; "187"; "191"]%char (s_buf st)) as [r|] eqn:A; [|discriminate]. clear Hb.
  rewrite B in A. assert (Lw : (length ["239"; "187"; "191"]%char <= length x)%nat) by (apply (after_padded _ x k r); [nf|exact A]).
  rewrite (after_app _ _ _ Lw) in A. destruct (after _ x) as [r'|] eqn:A'; [|discriminate]. apply after_Some in A'.
  apply exactly_fits. split; [|exact Wn]. exists (r' ++ txt f), (open f). exists r', f. split; [|auto]. unfold stream_move, stream_accept.
  subst x. pose proof (norm_advance st _ r' f 3 0 N) as H0. rewrite I in H0. specialize (H0 eq_refl).
  destruct H0 as (p1 & q1 & H0). exists p1, q1. exact H0.
Qed.
Lemma file_there w content : doc_parse_file w (Some content) = UB -> ParseModel.doc_parse_file content = UB.
Proof. intros H. pose proof (file_tells w content) as T. rewrite H in T. exact T. Qed.
(** the error quotes the file *)
Theorem file_place w content m r : doc_parse_file w (Some content) = Ok (m, None) -> In r (reports m) -> place_within content r.
Proof.
  intros H J. pose proof (file_tells w content) as T. rewrite H in T. cbn [tells] in T. exact (proj1 (Forall_forall _ _) T r J).
Qed.
Theorem file_both w content o : ParseModel.doc_parse_file content = Ok o <-> exists m, doc_parse_file w (Some content) = Ok (m, o).
Proof.
  split; [|intros (m & H); exact (file_agrees _ _ _ _ H)]. intros H.
  pose proof (RepProofs6.file_ends w content) as E. destruct (doc_parse_file w (Some content)) as [[m [d|]]| |] eqn:R; cbn [ends] in E.
  - destruct E as (E & _). rewrite H in E. injection E as <-. eauto.
  - destruct E as (E & _). rewrite H in E. injection E as <-. eauto.
  - apply file_there in R. congruence.
  - congruence.
Qed.
(** every file but those with a short standalone value *)
Theorem file_returns w content : (exists m o, doc_parse_file w (Some content) = Ok (m, o)) \/ short content.
Proof.
  destruct (FsafeProofs3.file_ends content) as [(o & H)|(_ & H)]; [|right; exact H].
  left. apply (file_both w) in H. destruct H as (m & H). eauto.
Qed.
Theorem file_call w content :
  (forall a q v q' b, content = a ++ s2b "standalone=" ++ [q] ++ v ++ [q'] ++ b -> quote q -> quote q' -> (2 <= length v)%nat) ->
  exists m o, doc_parse_file w (Some content) = Ok (m, o).
Proof.
  intros H. destruct (file_returns w content) as [R|(a & q & v & q' & b & E & Q & Q' & L)]; trivial.
  specialize (H _ _ _ _ _ E Q Q'). lia.
Qed.
(** the content of a file moves in the buffer when more is asked for *)
Theorem place_file : exists content m r, doc_parse_file true (Some content) = Ok (m, None) /\ reports m = [r] /\ ~ place_in content r.
Proof.
  exists (s2b "<a><b/></a"). eexists _, _. split; [vm_compute; reflexivity|]. split; [reflexivity|].
  intros (i & n & f & E & _). cbn in E. discriminate.
Qed.
