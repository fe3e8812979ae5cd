(** The calls: what is reported and what is left (C61). *)
From Coq Require Import Permutation Lia.
From Verif Require Import Prelude StrModel StreamModel TreeModel ParseModel DtdModel DtdDocModel LoadModel.
From Verif Require Import RepModel RepSpec RepProofs RepProofs2 RepProofs3 FrepSpec DrepModel DrepSpec DnearProofs DrepProofs DrepProofs2 DrepProofs3 DrepProofs4.
Open Scope Z_scope.

Lemma start_work w file self m : take (stream_new (book_new w) file) = (m, self) ->
  at_work w None (link (linked_with m (MDtd self None None None))) (MDtd self None None None) [].
Proof.
  assert (E : forall m l, (live m = rev (seq 0 (next m)))%nat -> Permutation (live m) l -> exact m l).
  { intros m0 l L P. split; [|split]; trivial; rewrite L.
    - apply NoDup_rev. apply seq_NoDup.
    - apply Forall_forall. intros x X. apply in_rev in X. apply in_seq in X. lia. }
  intros T. destruct file; injection T as <- <-; (split; [|split; [split; [reflexivity|cbn; lia]|discriminate]]);
    constructor; try reflexivity; try discriminate; (apply E; [reflexivity|]); cbn; perm.
Qed.
Lemma finish_work w p m d : at_work w p m d [] ->
  exists m', (m <- unlink m ;; stream_free m) = Ok m' /\ reports m' = [] /\ exact m' (freed_dtd d).
Proof.
  intros (H & (D & _) & Np). unfold unlink. rewrite (idle_touch _ _ _ _ _ H). cbn [bind]. unfold stream_free.
  assert (T : touch (with_document m false (document m)) = Ok tt) by exact (idle_touch _ _ _ _ _ H).
  rewrite T. cbn [bind with_document linked].
  set (m0 := with_document m false (document m)).
  destruct H as [E L P N F K W R O Dn].
  assert (B : exists m2, release_chunk m0 = Ok m2 /\ exact m2 (own m ++ document m) /\
     near m2 = None /\ follow m2 = None /\ own m2 = own m /\ reports m2 = []).
  { unfold release_chunk. change (last m0) with (last m). rewrite L. destruct p as [[x|]|]; [|congruence|].
    - destruct (release_exact m0 x (own m ++ document m)) as (L2 & R2 & E2).
      { eapply exact_perm; [|exact E]. cbn [heap_of]. perm. }
      rewrite R2. cbn [bind]. eexists; split; [reflexivity|]. split; [exact E2|]. cbn. tauto.
    - exists m0. split; trivial. split; [|cbn; tauto]. eapply exact_perm; [|exact E]. perm. }
  destruct B as (m2 & R2 & E2 & Nn & Ff & Oo & Rr). rewrite R2. cbn [bind]. rewrite Nn. cbn [release_opt bind]. rewrite Ff. cbn [release_opt bind].
  rewrite Oo. destruct (releases_exact (own m) m2 (document m) E2) as (L5 & R5 & E5). rewrite R5. cbn [bind].
  eexists; split; [reflexivity|]. split; [exact Rr|]. cbn. rewrite <- D. exact E5.
Qed.

Definition left_with (m : book) (d : mdtd) : Prop := reports m = [] /\ exact m (freed_dtd d).
Definition ends {A} (w : bool) (k : bool) (c : bytes) (r' : res (book * option (mdtd * A))) (r : res (option A)) : Prop :=
  match r' with
  | Ok (m, Some (d, x)) => r = Ok (Some x) /\ left_with m d
  | Ok (m, None) => r = Ok None /\ gone w k c m
  | NoFuel => r = NoFuel
  | UB => r = UB
  end.
Lemma common_ends w k c f file st : okd c st -> fd st = k ->
  ends w k c (parse_common f (stream_new (book_new w) file) st) (LoadModel.parse_common f st).
Proof.
  intros K F. unfold parse_common, LoadModel.parse_common. destruct (take (stream_new (book_new w) file)) as [m self] eqn:T. cbv zeta.
  apply start_work in T. pose proof (loop_drel w c k f _ _ _ st load_new 0 T eq_refl K F) as R.
  set (e' := dtd_loop _ _ _ _ _ _) in *. set (e := LoadModel.dtd_loop _ _ _ _) in *. clearbody e' e.
  destruct e' as [[m1 [[d1 [s1 l1]]|]]| |]; cbn [drel bindm] in *.
  - destruct R as (-> & ((p1 & H1) & _) & K1 & F1). cbn [bindo fst snd] in *. unfold finish.
    match goal with |- context [bind ?e _] => destruct e as [root| |] end; cbn [bind]; [|reflexivity|reflexivity].
    destruct (negb (l_id l1) && l_idref l1).
    + assert (NT : @nil nat <> [] <-> In (s2b "DTD semantic error, found IDREF attribute declaration but no attribute ID declaration was found.") element_errors) by (apply not_element; vm_compute; reflexivity).
      destruct (@fail_gone (mdtd * (dtd * list entity)) _ _ _ _ _ _ _ s1 (-1) (s2b "DTD semantic error, found IDREF attribute declaration but no attribute ID declaration was found.") H1 K1 F1 ltac:(lia) NT) as (m' & -> & D); cbn [ends]; tauto.
    + destruct (finish_work _ _ _ _ H1) as (m' & R & T1 & T2). destruct (unlink m1) as [m4| |]; cbn [bind] in R |- *; try discriminate.
      rewrite R. cbn [bind ends]. split; trivial. now split.
  - destruct R as (-> & D). cbn [bindo ends]. tauto.
  - rewrite R. reflexivity.
  - rewrite R. reflexivity.
Qed.
Lemma mem_ends w f content : ends w false content (dtd_parse w f content) (LoadModel.dtd_parse f content).
Proof.
  unfold dtd_parse, LoadModel.dtd_parse. apply common_ends; [|reflexivity]. split; [|discriminate]. exists content. split; [|now left].
  intros _. cbn [stream_mem s_size s_idx s_prev s_buf]. repeat (split; [lia|]). exists [NUL]. apply masked_refl.
Qed.
Lemma file_ends w f content : ends w true content (dtd_parse_file w f (Some content)) (LoadModel.dtd_parse_file f content).
Proof.
  unfold dtd_parse_file, LoadModel.dtd_parse_file. destruct (stream_file content) as [st| |] eqn:F; cbn [bind ends]; auto.
  assert (K : fd st = true).
  { unfold stream_file in F. destruct (prebuffer _) as [[s1 b]| |] eqn:P; cbn [bind] in F; try discriminate. injection F as <-.
    apply prebuffer_keeps in P as ((P & _) & _). exact P. }
  apply common_ends; trivial. split; [|intros _; split; [eapply file_near; eauto|exists content; split; [exact (FwinProofs.file_window _ _ F)|now left]]]. exists content. split; [|now left]. intros X. congruence.
Qed.

(** ** the statements *)
Lemma agrees w f content o : LoadModel.dtd_parse f content = Ok o <-> exists m x, dtd_parse w f content = Ok (m, x) /\ o = option_map snd x.
Proof.
  pose proof (mem_ends w f content) as E. destruct (dtd_parse w f content) as [[m [[d x]|]]| |]; cbn [ends] in E.
  - destruct E as (-> & _). split; [intros [= <-]; exists m, (Some (d, x)); tauto|intros (m' & x' & [= _ <-] & ->); trivial].
  - destruct E as (-> & _). split; [intros [= <-]; exists m, None; tauto|intros (m' & x' & [= _ <-] & ->); trivial].
  - rewrite E. split; [discriminate|intros (? & ? & [=] & _)].
  - rewrite E. split; [discriminate|intros (? & ? & [=] & _)].
Qed.
Lemma file_agrees w f content o : LoadModel.dtd_parse_file f content = Ok o <-> exists m x, dtd_parse_file w f (Some content) = Ok (m, x) /\ o = option_map snd x.
Proof.
  pose proof (file_ends w f content) as E. destruct (dtd_parse_file w f (Some content)) as [[m [[d x]|]]| |]; cbn [ends] in E.
  - destruct E as (-> & _). split; [intros [= <-]; exists m, (Some (d, x)); tauto|intros (m' & x' & [= _ <-] & ->); trivial].
  - destruct E as (-> & _). split; [intros [= <-]; exists m, None; tauto|intros (m' & x' & [= _ <-] & ->); trivial].
  - rewrite E. split; [discriminate|intros (? & ? & [=] & _)].
  - rewrite E. split; [discriminate|intros (? & ? & [=] & _)].
Qed.
(** loading, and telling why not, stays inside the buffer *)
Lemma file_no_fault w f file : dtd_parse_file w f file <> UB.
Proof.
  destruct file as [content|]; [|discriminate]. intros H. pose proof (file_ends w f content) as E. rewrite H in E. cbn [ends] in E.
  exact (FdtdProofs.file_no_ub f content E).
Qed.
Definition returned {A} (Q : report -> Prop) (w : bool) (m : book) (o : option (mdtd * A)) : Prop :=
  match o with Some (d, _) => left_with m d | None => gone_by Q w m end.
Lemma mem_returned w f content m o : dtd_parse w f content = Ok (m, o) -> returned (placed content) w m o.
Proof. intros H. pose proof (mem_ends w f content) as E. rewrite H in E. destruct o as [[]|]; cbn [ends] in E; apply E. Qed.
Lemma plain_gone w code text : code < 0 -> existsb (bytes_eqb text) element_errors = false -> gone_by (fun _ => True) w (error_plain (book_new w) code text).
Proof.
  intros C Nt. exists []. split.
  - destruct w; cbn; split; [|split| |split]; cbn; try constructor; try (repeat constructor; cbn; intuition (discriminate || lia)); trivial.
  - destruct w; cbn; repeat split; trivial; try lia.
    eexists. split; [reflexivity|]. cbn [r_code r_text]. split; trivial. split; trivial. now apply not_element.
Qed.
Lemma file_returned w f file m o : dtd_parse_file w f file = Ok (m, o) -> returned (fun _ => True) w m o.
Proof.
  intros H. destruct file as [content|].
  - pose proof (file_ends w f content) as E. rewrite H in E. destruct o as [[]|]; cbn [ends] in E; [apply E|].
    destruct E as (_ & lost & E1 & E2 & E3 & E4). exists lost. repeat (split; trivial). destruct w; trivial. destruct E4 as (r & R1 & R2 & _ & R3). exists r. tauto.
  - injection H as <- <-. apply plain_gone; [lia|vm_compute; reflexivity].
Qed.
Lemma returned_error {A} Q w m (o : option (mdtd * A)) : returned Q w m o ->
  reports m = [] /\ (o <> None \/ w = false) \/ exists r, reports m = [r] /\ o = None /\ w = true /\ r_code r < 0.
Proof.
  destruct o as [[d x]|]; cbn [returned].
  - intros (R & _). left. split; trivial. left. discriminate.
  - intros (lost & _ & _ & _ & R). destruct w.
    + right. destruct R as (r & R & C & _). exists r. tauto.
    + left. tauto.
Qed.
Lemma returned_settle {A} Q w m (o : option (mdtd * A)) : returned Q w m o ->
  exists m', settle_dtd m o = Ok m' /\ (o <> None -> live m' = []) /\
    (w = true -> live m' <> [] <-> exists r, reports m = [r] /\ In (r_text r) element_errors).
Proof.
  destruct o as [[d x]|]; cbn [returned settle_dtd].
  - intros (Rm & E). unfold dtd_free.
    destruct (releases_exact (freed_dtd d) m []) as (L & R & E'). { now rewrite app_nil_r. }
    rewrite R. cbn [bind]. eexists; split; [reflexivity|]. destruct E' as (P & _ & _). cbn in *.
    apply Permutation_sym, Permutation_nil in P. subst L. split; trivial. intros _. rewrite Rm. split; [congruence|]. intros (r & X & _). discriminate.
  - intros (lost & E & _ & _ & R). unfold blocks_of in E. destruct w.
    + destruct R as (r & R & C & _ & N). rewrite R in *. cbn [map concat] in E. unfold error_free.
      destruct (releases_exact (rev (r_blocks r)) m lost) as (L & Rl & E').
      { eapply exact_perm; [|exact E]. rewrite app_nil_r. apply Permutation_app_tail, Permutation_rev. }
      rewrite Rl. eexists; split; [reflexivity|]. destruct E' as (P & _ & _). cbn in *. split; [congruence|]. intros _.
      assert (B : L <> [] <-> lost <> []).
      { split; intros X ->; [apply Permutation_sym, Permutation_nil in P|apply Permutation_nil in P]; auto. }
      rewrite B, N. split; [eauto|]. intros (r' & [= <-] & X). exact X.
    + rewrite R in *. exists m. split; trivial. split; [congruence|discriminate].
Qed.
Lemma place f content m o : dtd_parse true f content = Ok (m, o) -> o = None -> exists r text, reports m = [r] /\ place_in text r /\ (~ In "%"%char content -> text = content).
Proof.
  intros H ->. apply mem_returned in H. destruct H as (lost & _ & _ & _ & (r & R & _ & I & _)).
  destruct I as (t & P & Q). exists r, t. split; trivial. split; trivial. destruct Q; tauto.
Qed.
Lemma place_file f content m o : dtd_parse_file true f (Some content) = Ok (m, o) -> o = None -> exists r text, reports m = [r] /\ place_within text r /\ (~ In "%"%char content -> text = content).
Proof.
  intros H ->. pose proof (file_ends true f content) as E. rewrite H in E. cbn [ends] in E. destruct E as (_ & lost & _ & _ & _ & (r & R & _ & (t & P & Q) & _)).
  exists r, t. split; trivial. split; trivial. destruct Q; tauto.
Qed.
(** the content of a file moves in the buffer when more is asked for *)
Lemma place_file_lost : exists content m r, ~ In "%"%char content /\ dtd_parse_file true 100 (Some content) = Ok (m, None) /\ reports m = [r] /\ ~ place_in content r.
Proof.
  exists (s2b "<!ELEMENT a (b)><!ENTITY c 'd"). eexists _, _. split; [|split; [vm_compute; reflexivity|split; [reflexivity|]]].
  - intros X. cbn in X. repeat (destruct X as [X|X]; [discriminate|]). exact X.
  - intros (i & n & f & E & _). cbn in E. discriminate.
Qed.
