(** The calls: what is reported and what is left (C60). *)
From Coq Require Import Permutation Lia.
From Verif Require Import Prelude StrModel AttrModel TreeModel StreamModel ParseModel RepModel RepSpec RepProofs RepProofs2 RepProofs3 RepProofs4 RepProofs5.
Open Scope Z_scope.

Lemma start_ok w file : idle w false None (link (doc_new (stream_new (book_new w) file))) [].
Proof.
  assert (E : forall m l, (live m = rev (seq 0 (next m)))%nat -> Permutation (live m) l -> exact m l).
  { intros m l L P. split; [|split]; trivial; rewrite L.
    - apply NoDup_rev. apply seq_NoDup.
    - apply Forall_forall. intros x X. apply in_rev in X. apply in_seq in X. lia. }
  destruct file; constructor; try reflexivity; try discriminate; (apply E; [reflexivity|]); cbn; perm.
Qed.

Definition told_nothing (m : book) : Prop := reports m = [] /\ exact m (document m).
Lemma finish_ok w p m : idle w false p m [] -> p <> Some Pool ->
  exists m', (m <- unlink m ;; stream_free m) = Ok m' /\ told_nothing m'.
Proof.
  intros H Np. unfold unlink. rewrite (idle_touch _ _ _ _ _ H). cbn [bind]. unfold stream_free.
  assert (T : touch (with_document m false (document m)) = Ok tt).
  { pose proof (idle_touch _ _ _ _ _ H) as T. exact T. }
  rewrite T. cbn [bind with_document linked].
  set (m0 := with_document m false (document m)).
  destruct H as [E L P N F K W R O D].
  assert (B : exists m2, release_chunk m0 = Ok m2 /\ exact m2 (own m ++ document m) /\
     near m2 = None /\ follow m2 = None /\ own m2 = own m /\ reports m2 = [] /\ document m2 = document m).
  { unfold release_chunk. change (last m0) with (last m). rewrite L. destruct p as [[x|]|]; [|congruence|].
    - destruct (release_exact m0 x (own m ++ document m)) as (L2 & R2 & E2).
      { eapply exact_perm; [|exact E]. cbn [heap_of]. perm. }
      rewrite R2. cbn [bind]. eexists; split; [reflexivity|]. split; [exact E2|]. cbn. tauto.
    - exists m0. split; trivial. split; [|cbn; tauto]. eapply exact_perm; [|exact E]. perm. }
  destruct B as (m2 & R2 & E2 & Nn & Ff & Oo & Rr & Dd). rewrite R2. cbn [bind]. rewrite Nn. cbn [release_opt bind]. rewrite Ff. cbn [release_opt bind].
  rewrite Oo. destruct (releases_exact (own m) m2 (document m) E2) as (L5 & R5 & E5). rewrite R5. cbn [bind].
  eexists; split; [reflexivity|]. split; [exact Rr|]. cbn. rewrite Dd. exact E5.
Qed.

(** the whole parser; the stream of the result is of no interest *)
Definition ends {A} (w : bool) (k : bool) (sz : bytes) (r' : res (book * option A)) (r : res (option A)) : Prop :=
  match r' with
  | Ok (m, Some x) => r = Ok (Some x) /\ told_nothing m
  | Ok (m, None) => r = Ok None /\ dead w k sz m
  | NoFuel => r = NoFuel
  | UB => r = UB \/ k = true
  end.
Lemma ends_bindm {A B} w sz J k (Q : B -> stream) e' e (f' : book * B -> res (book * option A)) (f : B -> res (option A)) :
  rel w sz J k Q e' e ->
  (forall m x, J m -> ok sz (Q x) -> fd (Q x) = k -> ends w k sz (f' (m, x)) (f x)) -> ends w k sz (bindm e' f') (bindo e f).
Proof.
  intros R H. destruct e' as [[m [x|]]| |]; cbn [rel bindm ends] in *.
  - destruct R as (-> & J0 & K0 & F0). cbn [bindo]. auto.
  - destruct R as (-> & D). cbn [bindo ends]. split; trivial.
  - destruct R as [->| ->]; cbn [bindo ends]; [now left|now right].
  - rewrite R. reflexivity.
Qed.
Lemma common_ends w k sz file st : ok sz st -> fd st = k ->
  (forall b, stream_check st ["239"; "187"; "191"]%char = Ok b -> b = true -> fd st = false -> 3 <= s_size st) ->
  ends w k sz (parse_common (stream_new (book_new w) file) st) (ParseModel.parse_common st).
Proof.
  intros K F Bom. unfold parse_common. cbv zeta.
  assert (E : ParseModel.parse_common st = bindo (ParseModel.parse_xml_header st pdoc_new) (fun '(st, d) =>
     bindo (ParseModel.parse_node st (with_header d)) (fun '(st, d, is_empty) =>
     bindo (if (is_empty : bool) then Ok (Some (st, d)) else ParseModel.content_loop (turns st) st d) (fun '(_, d) =>
     match p_stack d with
     | [] => Ok (Some (Doc (p_root d) (p_encoding d) (p_standalone d) (p_pis d)))
     | _ => Ok None
     end)))).
  { unfold ParseModel.parse_common. destruct (ParseModel.parse_xml_header st pdoc_new) as [[[s0 d0]|]| |]; reflexivity. }
  rewrite E. clear E.
  eapply ends_bindm; [apply header_rel; trivial; exists None; split; [discriminate|apply start_ok]|].
  intros m1 [sa da] S1 Ka Fa. cbn [fst] in *. cbv beta iota.
  eapply ends_bindm; [apply node_rel; trivial|].
  intros m2 [[sb db] e] S2 Kb Fb. unfold of3 in *; cbn [fst] in *. cbv beta iota.
  eapply (ends_bindm w sz (still w false) k fst).
  { destruct e; [apply rel_same; trivial|apply content_rel; trivial]. }
  intros m3 [sc dc] (p & Np & H) Kc Fc. cbn [fst] in *. cbv beta iota. destruct (p_stack dc) as [|n r].
  - destruct (finish_ok _ _ _ H Np) as (m' & R & T). destruct (unlink m3) as [m4| |]; cbn [bind] in R |- *; try discriminate.
    rewrite R. cbn [bind]. split; trivial.
  - destruct (@fail_ok doc sz w false p m3 [] sc (-1) (s2b "XML document is not balanced, still remains xml nodes") H Kc Np ltac:(lia) ltac:(cbn; lia) ltac:(congruence)) as [(-> & X)|(m' & -> & D)].
    + right. congruence.
    + split; trivial. now rewrite <- Fc.
Qed.

Lemma bom_size content b : stream_check (stream_mem content) ["239"; "187"; "191"]%char = Ok b -> b = true -> 3 <= Z.of_nat (length content).
Proof.
  intros H ->.
  assert (E : stream_check (stream_mem content) ["239"; "187"; "191"]%char = memcmp_loop ["239"; "187"; "191"; NUL]%char (cs content) 0 3).
  { unfold stream_check, ptr_at. cbn [s_idx s_buf stream_mem]. destruct (Z.ltb_spec (Z.of_nat (length (content ++ [NUL]))) 0); [lia|reflexivity]. }
  rewrite E in H. destruct content as [|x [|y [|z c]]]; [| | |cbn [length]; lia]; exfalso; revert H; cbn [cs app].
  - vm_compute. discriminate.
  - destruct (Ascii.eqb_spec x "239") as [->|N]; [vm_compute; discriminate|].
    cbn [memcmp_loop]. destruct (Ascii.eqb x NUL); [discriminate|]. destruct (Ascii.eqb_spec "239" x); [congruence|discriminate].
  - destruct (Ascii.eqb_spec "239" x) as [<-|N].
    + destruct y as [[] [] [] [] [] [] [] []]; vm_compute; discriminate.
    + cbn [memcmp_loop]. destruct (Ascii.eqb x NUL); [discriminate|]. destruct (Ascii.eqb_spec "239" x); [congruence|discriminate].
Qed.

Lemma mem_ends w content :
  ends w false content (doc_parse w content) (ParseModel.doc_parse content).
Proof.
  unfold doc_parse, ParseModel.doc_parse. apply common_ends.
  - intros _. cbn [stream_mem s_size s_idx s_prev s_buf]. repeat (split; [lia|]). exists [NUL]. apply masked_refl.
  - reflexivity.
  - intros b H B _. cbn [stream_mem s_size]. eapply bom_size; eauto.
Qed.
Lemma file_ends w content :
  ends w true [] (doc_parse_file w (Some content)) (ParseModel.doc_parse_file content).
Proof.
  unfold doc_parse_file, ParseModel.doc_parse_file. destruct (stream_file content) as [st| |] eqn:F; cbn [bind ends]; auto.
  assert (K : fd st = true).
  { unfold stream_file in F. destruct (prebuffer _) as [[s1 b]| |] eqn:P; cbn [bind] in F; try discriminate. injection F as <-.
    apply prebuffer_keeps in P as ((P & _) & _). exact P. }
  apply common_ends; trivial.
  - intros X. congruence.
  - intros b _ _ X. congruence.
Qed.

(** ** the statements *)

Lemma agrees w content o : ParseModel.doc_parse content = Ok o <-> exists m, doc_parse w content = Ok (m, o).
Proof.
  pose proof (mem_ends w content) as E. destruct (doc_parse w content) as [[m [d|]]| |]; cbn [ends] in E.
  - destruct E as (-> & _). split; [intros [= <-]; eauto|intros (m' & [= _ <-]); trivial].
  - destruct E as (-> & _). split; [intros [= <-]; eauto|intros (m' & [= _ <-]); trivial].
  - destruct E as [->|]; [|discriminate]. split; [discriminate|intros (m & [=])].
  - rewrite E. split; [discriminate|intros (m & [=])].
Qed.
Lemma file_agrees w content m o : doc_parse_file w (Some content) = Ok (m, o) -> ParseModel.doc_parse_file content = Ok o.
Proof.
  intros H. pose proof (file_ends w content) as E. rewrite H in E. destruct o; cbn [ends] in E; tauto.
Qed.

(** every call that returns *)
Definition returned (w k : bool) (sz : bytes) (m : book) (o : option doc) : Prop :=
  match o with Some _ => told_nothing m | None => dead w k sz m end.
Lemma mem_returned w content m o : doc_parse w content = Ok (m, o) -> returned w false content m o.
Proof. intros H. pose proof (mem_ends w content) as E. rewrite H in E. destruct o; cbn [ends] in E; apply E. Qed.
Lemma plain_dead w code text : code < 0 -> dead w true [] (error_plain (book_new w) code text).
Proof.
  intros C. exists []. split.
  - destruct w; cbn; split; [|split| |split]; cbn; try constructor; try (repeat constructor; cbn; intuition (discriminate || lia)); trivial.
  - destruct w; cbn; repeat split; trivial; try lia.
    eexists. split; [reflexivity|]. cbn. split; trivial. split; [discriminate|congruence].
Qed.
Lemma file_returned w file m o : doc_parse_file w file = Ok (m, o) -> returned w true [] m o.
Proof.
  intros H. destruct file as [content|].
  - pose proof (file_ends w content) as E. rewrite H in E. destruct o; cbn [ends] in E; apply E.
  - injection H as <- <-. apply plain_dead. lia.
Qed.

Lemma returned_error w k sz m o : returned w k sz m o ->
  reports m = [] /\ (o <> None \/ w = false) \/ exists r, reports m = [r] /\ o = None /\ w = true /\ r_code r < 0.
Proof.
  destruct o as [d|]; cbn [returned].
  - intros (R & _). left. split; trivial. left. discriminate.
  - intros (lost & _ & _ & _ & _ & _ & _ & _ & R). destruct w.
    + right. destruct R as (r & R & C & _). exists r. tauto.
    + left. tauto.
Qed.
Lemma returned_settle w k sz m o : returned w k sz m o ->
  exists m', settle m o = Ok m' /\ (length (live m') <= 1)%nat /\ (o <> None -> live m' = []) /\
    (live m' <> [] -> w = true -> exists r, reports m = [r] /\ r_code r = -2 /\ r_text r = no_name).
Proof.
  destruct o as [d|]; cbn [returned settle].
  - intros (_ & E). unfold doc_free.
    destruct (releases_exact (document m) m []) as (L & R & E'). { now rewrite app_nil_r. }
    rewrite R. cbn [bind]. eexists; split; [reflexivity|]. destruct E' as (P & _ & _). cbn in *.
    apply Permutation_sym, Permutation_nil in P. subst L. cbn. repeat split; auto; congruence.
  - intros (lost & E & _ & _ & _ & _ & _ & Ll & R). unfold blocks_of in E. destruct w.
    + destruct R as (r & R & C & _ & N). rewrite R in *. cbn [map concat] in E. unfold error_free.
      destruct (releases_exact (rev (r_blocks r)) m lost) as (L & Rl & E').
      { eapply exact_perm; [|exact E]. rewrite app_nil_r. apply Permutation_app_tail, Permutation_rev. }
      rewrite Rl. eexists; split; [reflexivity|]. destruct E' as (P & _ & _). cbn in *.
      rewrite (Permutation_length P). split; trivial. split; [congruence|]. intros H _. exists r. split; trivial. apply N.
      intros ->. apply Permutation_sym, Permutation_nil in P. auto.
    + rewrite R in *. exists m. split; trivial. destruct E as (P & _ & _). cbn in P.
      rewrite (Permutation_length P). split; trivial. split; [congruence|discriminate].
Qed.
Lemma place content m : doc_parse true content = Ok (m, None) -> exists r, reports m = [r] /\ place_in content r.
Proof.
  intros H. apply mem_returned in H. destruct H as (lost & _ & _ & _ & _ & _ & _ & _ & (r & R & _ & I & _)).
  exists r. auto.
Qed.
