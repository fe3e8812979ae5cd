From Coq Require Import Permutation.
From Verif Require Import Prelude Arr HashModel DtdModel DtdSpec DtdProofs DtdProofs2 DtdProofs3 DtdDocModel DtdDocSpec DtdDocProofs DtdDocProofs2.
Open Scope nat_scope.
Open Scope list_scope.

Lemma validate_eq fuel cfuel d root : dtd_ok d ->
  validate fuel cfuel d root =
  match get_element d (e_name root) with
  | None => Ok false
  | Some c =>
    match el_ty c with
    | TEmpty =>
      if e_empty root && negb (have_childs root) then
        o <- attr_validate d root (id_start d) ;; match o with None => Ok false | Some s => references s end
      else Ok false
    | _ => validate_loop fuel cfuel d root c [] (id_start d) true
    end
  end.
Proof.
  intro D. unfold validate. destruct (ok_top d D) as (c0 & T & I0). rewrite T. destruct (bytes_eqb (e_name root) (el_name c0)) eqn:E; [|reflexivity].
  apply bytes_eqb_eq in E. rewrite (proj2 (get_element_spec d root c0 (ok_els d D)) (conj I0 (eq_sym E))). reflexivity.
Qed.
Lemma no_childs e : have_childs e = false -> e_subs e = [].
Proof. unfold have_childs. destruct (e_subs e); [reflexivity|discriminate]. Qed.
Lemma vorder_single d e : e_subs e = [] -> vorder d e = [e].
Proof. intro H. rewrite vorder_eq, H. destruct (any_declared d e); reflexivity. Qed.

Lemma validate_true fuel cfuel d root : dtd_ok d -> validate fuel cfuel d root = Ok true ->
  exists c s', get_element d (e_name root) = Some c /\ runs d (vorder d root) (id_start d) = Ok (Some s') /\ references s' = Ok true /\
    content_ok cfuel c root true = Ok true /\ Forall (fun e => passes cfuel d e false) (tl (vorder d root)).
Proof.
  intros D H. rewrite validate_eq in H by exact D. destruct (get_element d (e_name root)) as [c|] eqn:G; [|discriminate].
  assert (X : validate_loop fuel cfuel d root c [] (id_start d) true = Ok true ->
     exists c' s', Some c = Some c' /\ runs d (vorder d root) (id_start d) = Ok (Some s') /\ references s' = Ok true /\
       content_ok cfuel c' root true = Ok true /\ Forall (fun e => passes cfuel d e false) (tl (vorder d root))).
  { intro Hl. destruct (loop_true d (ok_els d D) cfuel fuel root c [] (id_start d) true G Hl) as (s' & R1 & R2 & R3 & R4).
    cbn [flat_map] in R1, R4. rewrite app_nil_r in R1, R4. exists c, s'. auto 6. }
  destruct (el_ty c) eqn:T; try (apply X; exact H). clear X.
  destruct (e_empty root && negb (have_childs root)) eqn:E; [|discriminate].
  pose proof E as E'. apply andb_prop in E'. destruct E' as [_ E']. apply Bool.negb_true_iff in E'. apply no_childs in E'.
  rewrite (vorder_single d root E'). cbn [runs tl]. destruct (attr_validate d root (id_start d)) as [[s1|]| |]; cbn [bind] in H |- *; try discriminate.
  exists c, s1. unfold content_ok. rewrite T, E. auto 6.
Qed.
Lemma validate_back fuel cfuel d root c s' : dtd_ok d -> ends_plain d root = true -> length (elems d root) <= fuel ->
  get_element d (e_name root) = Some c -> runs d (vorder d root) (id_start d) = Ok (Some s') -> references s' = Ok true ->
  content_ok cfuel c root true = Ok true -> Forall (fun e => passes cfuel d e false) (tl (vorder d root)) ->
  validate fuel cfuel d root = Ok true.
Proof.
  intros D P L G R Rf C F. rewrite validate_eq by exact D. rewrite G.
  assert (X : validate_loop fuel cfuel d root c [] (id_start d) true = Ok true).
  { apply (loop_back d (ok_els d D) cfuel fuel root c [] (id_start d) true s'); auto; cbn [flat_map]; rewrite app_nil_r; auto.
    rewrite (Permutation_length (vorder_perm d root)). exact L. }
  destruct (el_ty c) eqn:T; try exact X. unfold content_ok in C. rewrite T in C. injection C as C. rewrite C.
  apply andb_prop in C. destruct C as [_ C]. apply Bool.negb_true_iff in C. apply no_childs in C. rewrite (vorder_single d root C) in R.
  cbn [runs] in R. destruct (attr_validate d root (id_start d)) as [[s1|]| |]; cbn [bind] in R |- *; try discriminate.
  injection R as <-. exact Rf.
Qed.
(** ** C35 *)
Lemma validate_ends fuel cfuel d root : dtd_ok d -> (forall c, In c (d_elements d) -> content_ends c) -> ends_plain d root = true ->
  length (elems d root) <= fuel -> (forall e, In e (elems d root) -> length (e_subs e) < cfuel) ->
  exists b, validate fuel cfuel d root = Ok b.
Proof.
  intros D CE P L Lc. rewrite validate_eq by exact D. destruct (get_element d (e_name root)) as [c|] eqn:G; [|eauto].
  assert (X : exists b, validate_loop fuel cfuel d root c [] (id_start d) true = Ok b).
  { apply (loop_ends d (ok_els d D) cfuel CE fuel root c [] (id_start d) true [] [] (state_start d)); auto; cbn [flat_map]; rewrite ?app_nil_r.
    - rewrite (Permutation_length (vorder_perm d root)). exact L.
    - intros e He. apply Lc. apply (Permutation_in _ (vorder_perm d root)). exact He.
    - intros s K R. apply references_go. }
  destruct (el_ty c); try exact X. destruct (e_empty root && negb (have_childs root)); [|eauto].
  destruct (attr_go d root (id_start d) [] [] (state_start d)) as (o & -> & H). cbn [bind]. destruct o as [s|]; [|eauto].
  destruct H as (_ & H & _). eapply references_go. exact H.
Qed.

(** ** what acceptance means *)
Lemma seen_passes fuel cfuel d root e : dtd_ok d -> validate fuel cfuel d root = Ok true -> In e (elems d root) ->
  exists c top, declared d e c /\ content_ok cfuel c e top = Ok true.
Proof.
  intros D H He. destruct (validate_true fuel cfuel d root D H) as (c & s' & G & _ & _ & C & F).
  apply (Permutation_in _ (Permutation_sym (vorder_perm d root))) in He. rewrite vorder_eq in He, F. cbn [tl] in F. destruct He as [<-|He].
  - exists c, true. split; [apply get_element_spec; [apply ok_els; exact D|exact G]|exact C].
  - rewrite Forall_forall in F. destruct (F e He) as (c' & G' & C'). exists c', false. split; [apply get_element_spec; [apply ok_els; exact D|exact G']|exact C'].
Qed.
Lemma content_sound cfuel c e top : content_safe c -> content_ok cfuel c e top = Ok true -> content_valid c e.
Proof.
  unfold content_safe, content_ok, content_valid. intros S H. destruct (el_ty c); try exact I.
  - injection H as H. apply andb_prop in H. destruct H as [H1 H2]. apply Bool.negb_true_iff in H2. split; [exact H1|apply no_childs; exact H2].
  - destruct (S eq_refl) as (p & [L M] & S1). rewrite L in H |- *. cbn [of_option bind] in H. rewrite M in H. exists p. split; [reflexivity|].
    eapply children_sound; eassumption.
  - injection H as H. apply Bool.negb_true_iff in H. apply no_childs. exact H.
Qed.
Lemma doc_content_sound fuel cfuel d root e : dtd_ok d -> validate fuel cfuel d root = Ok true -> In e (elems d root) ->
  exists c, declared d e c /\ (content_safe c -> content_valid c e).
Proof.
  intros D H He. destruct (seen_passes fuel cfuel d root e D H He) as (c & top & C1 & C2). exists c. split; [exact C1|].
  intro S. eapply content_sound; eassumption.
Qed.
Lemma doc_runs fuel cfuel d root : dtd_ok d -> validate fuel cfuel d root = Ok true ->
  Forall (fun e => atts_check d e = true) (vorder d root) /\
  exists s' K', state d s' K' (flat_map (refs_at d) (vorder d root)) /\ Permutation K' (flat_map (keys_of d) (vorder d root)) /\ NoDup (somes K') /\ references s' = Ok true.
Proof.
  intros D H. destruct (validate_true fuel cfuel d root D H) as (c & s' & _ & R & Rf & _).
  destruct (runs_true d (vorder d root) (id_start d) [] [] s' (state_start d)) as (F & K' & S1 & P & N); [constructor|exact R|].
  split; [exact F|]. exists s', K'. rewrite app_nil_r in P. auto.
Qed.
Lemma doc_atts_sound fuel cfuel d root e : dtd_ok d -> validate fuel cfuel d root = Ok true -> In e (elems d root) -> atts_valid d e.
Proof.
  intros D H He. destruct (doc_runs fuel cfuel d root D H) as (F & _). apply atts_check_sound; [exact D|]. rewrite Forall_forall in F. apply F.
  apply (Permutation_in _ (Permutation_sym (vorder_perm d root))). exact He.
Qed.
Lemma somes_flat {A} (f : A -> list okey) l : somes (flat_map f l) = flat_map (fun a => somes (f a)) l.
Proof. unfold somes. induction l as [|a l IH]; cbn [flat_map]; [reflexivity|]. rewrite flat_map_app, IH. reflexivity. Qed.
Lemma flat_map_eq {A B} (f g : A -> list B) l : (forall a, In a l -> f a = g a) -> flat_map f l = flat_map g l.
Proof. intro H. induction l as [|a l IH]; cbn [flat_map]; [reflexivity|]. rewrite (H a (or_introl eq_refl)), IH by (intros; apply H; right; assumption). reflexivity. Qed.
Lemma in_vorder d root e : In e (vorder d root) <-> In e (elems d root).
Proof. split; apply Permutation_in; [|apply Permutation_sym]; apply vorder_perm. Qed.
Lemma ids_perm d root : dtd_ok d -> atts_distinct d root ->
  Permutation (somes (flat_map (keys_of d) (vorder d root))) (flat_map (ids d) (elems d root)).
Proof.
  intros D A. rewrite somes_flat. rewrite (flat_map_eq (ids d) (fun e => somes (keys_of d e))).
  - apply Permutation_flat_map. apply vorder_perm.
  - intros e He. apply ids_keys; [exact D|apply A; exact He].
Qed.
Lemma refs_perm d root : dtd_ok d -> atts_distinct d root ->
  Permutation (flat_map (refs_at d) (vorder d root)) (flat_map (idrefs d) (elems d root)).
Proof.
  intros D A. rewrite (flat_map_eq (idrefs d) (refs_at d)).
  - apply Permutation_flat_map. apply vorder_perm.
  - intros e He. apply idrefs_at; [exact D|apply A; exact He].
Qed.
Lemma somes_perm l l' : Permutation l l' -> Permutation (somes l) (somes l').
Proof. apply Permutation_flat_map. Qed.
Lemma doc_ids_sound fuel cfuel d root : dtd_ok d -> atts_distinct d root -> validate fuel cfuel d root = Ok true ->
  NoDup (flat_map (ids d) (elems d root)).
Proof.
  intros D A H. destruct (doc_runs fuel cfuel d root D H) as (_ & s' & K' & _ & P & N & _).
  eapply Permutation_NoDup; [|exact N]. rewrite <- (ids_perm d root D A). apply somes_perm. exact P.
Qed.
Lemma keys_all d root : dtd_ok d -> ids_given d root ->
  flat_map (keys_of d) (vorder d root) = map Some (somes (flat_map (keys_of d) (vorder d root))).
Proof.
  intros D G. assert (X : forall e, In e (vorder d root) -> keys_of d e = map Some (somes (keys_of d e))).
  { intros e He. apply keys_given; [exact D|]. intros l a. apply G. apply in_vorder. exact He. }
  induction (vorder d root) as [|e L IH]; [reflexivity|]. cbn [flat_map]. unfold somes. rewrite flat_map_app. fold (somes (keys_of d e)) (somes (flat_map (keys_of d) L)).
  rewrite map_app, <- IH by (intros; apply X; right; assumption). rewrite <- X by (left; reflexivity). reflexivity.
Qed.
Lemma state_perm d s K K' R : Permutation K K' -> state d s K R -> state d s K' R.
Proof.
  intros P [S1 S2]. split; [|exact S2]. destruct (d_id d).
  - destruct S1 as (h & E & T). exists h. split; [exact E|]. destruct T as [T1 T2 T3]. constructor; auto. rewrite T2. exact P.
  - destruct S1 as [E ->]. split; [exact E|]. apply Permutation_nil. exact P.
Qed.
Lemma doc_refs_sound fuel cfuel d root : dtd_ok d -> atts_distinct d root -> ids_given d root -> validate fuel cfuel d root = Ok true ->
  incl (flat_map (idrefs d) (elems d root)) (flat_map (ids d) (elems d root)).
Proof.
  intros D A G H. destruct (doc_runs fuel cfuel d root D H) as (_ & s' & K' & S & P & N & Rf).
  apply (state_perm d s' _ _ _ P) in S. rewrite (keys_all d root D G) in S. apply (references_exact d s' _ _ S) in Rf.
  intros v Hv. apply (Permutation_in _ (ids_perm d root D A)). apply Rf. apply (Permutation_in _ (Permutation_sym (refs_perm d root D A))). exact Hv.
Qed.
(** ** every valid document is accepted *)
Lemma content_complete cfuel c e top : content_det c top -> length (e_subs e) < cfuel -> content_valid c e -> content_ok cfuel c e top = Ok true.
Proof.
  unfold content_det, content_ok, content_valid. intros S L H. destruct (el_ty c); try reflexivity.
  - destruct H as [H1 H2]. rewrite H1. unfold have_childs. rewrite H2. reflexivity.
  - destruct H as (p & E & W). destruct (S eq_refl) as (p' & [L' M] & S1 & S2). assert (p' = p) by congruence. subst p'. rewrite E. cbn [of_option bind].
    rewrite M. apply children_complete; [exact S1|exact S2|rewrite map_length; exact L|exact W].
  - unfold have_childs. rewrite H. reflexivity.
Qed.
Lemma content_det_top c : content_det c true -> content_det c false.
Proof.
  intros H T. destruct (H T) as (p & P1 & P2 & P3). exists p. split; [exact P1|]. split; [|exact P3].
  destruct p; [exact P2|]. unfold det_top in *. apply andb_prop in P2. destruct P2 as [P2 _]. rewrite P2. reflexivity.
Qed.
Lemma doc_complete fuel cfuel d root : dtd_ok d -> atts_distinct d root -> ids_given d root -> ends_plain d root = true ->
  (forall c, declared d root c -> content_det c true) -> (forall c, In c (d_elements d) -> content_det c false) ->
  length (elems d root) <= fuel -> (forall e, In e (elems d root) -> length (e_subs e) < cfuel) ->
  valid d root -> validate fuel cfuel d root = Ok true.
Proof.
  intros D A G P C1 C2 L Lc [V1 V2 V3].
  destruct (runs_back d (vorder d root) (id_start d) [] [] (state_start d)) as (s' & R).
  - apply Forall_forall. intros e He. apply in_vorder in He. destruct (V1 e He) as (c & _ & _ & W). apply atts_check_complete; auto.
  - intros e He. apply keys_given; [exact D|]. intros l a. apply G. apply in_vorder. exact He.
  - rewrite app_nil_r. rewrite <- somes_flat. eapply Permutation_NoDup; [|exact V2]. apply Permutation_sym. apply ids_perm; assumption.
  - assert (Rf : references s' = Ok true).
    { destruct (runs_true d (vorder d root) (id_start d) [] [] s' (state_start d)) as (_ & K' & S1 & Pm & _); [constructor|exact R|].
      rewrite app_nil_r in Pm. apply (state_perm d s' _ _ _ Pm) in S1. rewrite (keys_all d root D G) in S1. apply (references_exact d s' _ _ S1).
      intros v Hv. apply (Permutation_in _ (Permutation_sym (ids_perm d root D A))). apply V3. apply (Permutation_in _ (refs_perm d root D A)). exact Hv. }
    assert (Ps : forall e, In e (elems d root) -> passes cfuel d e false).
    { intros e He. destruct (V1 e He) as (c & Dc & Cv & _). exists c. split; [apply get_element_spec; [apply ok_els; exact D|exact Dc]|].
      apply content_complete; [apply C2; apply Dc|apply Lc; exact He|exact Cv]. }
    assert (Hr : In root (elems d root)) by (rewrite elems_eq; left; reflexivity).
    destruct (V1 root Hr) as (c & Dc & Cv & _).
    apply (validate_back fuel cfuel d root c s'); auto.
    + apply get_element_spec; [apply ok_els; exact D|exact Dc].
    + apply content_complete; [apply C1; exact Dc|apply Lc; exact Hr|exact Cv].
    + apply Forall_forall. intros e He. apply Ps. apply in_vorder. rewrite vorder_eq in He |- *. right. exact He.
Qed.
Lemma elems_all d e : no_any d -> elems d e = all_elems e.
Proof.
  intro A. assert (X : forall x, any_declared d x = false).
  { intro x. unfold any_declared. destruct (existsb _ _) eqn:E; [|reflexivity]. apply existsb_exists in E. destruct E as (c & H & E).
    apply andb_prop in E. destruct E as [_ E]. specialize (A c H). destruct (el_ty c); try discriminate. congruence. }
  induction e as [n a b l IH] using elem_ind2. rewrite elems_eq, X. cbn [all_elems e_subs]. f_equal.
  induction IH as [|k l H F IHl]; cbn [flat_map]; [reflexivity|]. rewrite H, IHl. reflexivity.
Qed.
Lemma plain_no_any d e : no_any d -> ends_plain d e = true.
Proof.
  intro A. induction e as [n a b l IH] using elem_ind2. rewrite ends_plain_eq. cbn [e_subs].
  assert (X : any_declared d (Elem n a b l) = false).
  { unfold any_declared. destruct (existsb _ _) eqn:E; [|reflexivity]. apply existsb_exists in E. destruct E as (c & H & E).
    apply andb_prop in E. destruct E as [_ E]. specialize (A c H). destruct (el_ty c); try discriminate. congruence. }
  rewrite X. destruct IH; [reflexivity|assumption].
Qed.
Lemma doc_exact fuel cfuel d root : dtd_ok d -> atts_distinct d root -> ids_given d root -> ends_plain d root = true ->
  (forall c, In c (d_elements d) -> content_safe c /\ content_det c true) ->
  length (elems d root) <= fuel -> (forall e, In e (elems d root) -> length (e_subs e) < cfuel) ->
  (validate fuel cfuel d root = Ok true <-> valid d root).
Proof.
  intros D A G P C L Lc. split.
  - intro H. constructor.
    + intros e He. destruct (doc_content_sound fuel cfuel d root e D H He) as (c & Dc & Cv). exists c. split; [exact Dc|]. split; [apply Cv; apply C; apply Dc|].
      eapply doc_atts_sound; eassumption.
    + eapply doc_ids_sound; eassumption.
    + eapply doc_refs_sound; eassumption.
  - apply doc_complete; auto.
    + intros c Hc. apply C. apply Hc.
    + intros c Hc. apply content_det_top. apply C. exact Hc.
Qed.
