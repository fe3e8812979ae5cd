(** A document text checked against the text of a DTD. *)
From Coq Require Import Permutation.
From Verif Require Import Prelude StrSpec AttrModel TreeModel ParseModel ParseProofs XmlSpec DumpProofs GramProofs3 GramProofs5
  DtdModel DtdSpec DtdProofs DtdDocModel DtdDocSpec DtdDocProofs3 DtdDocProofs4 LoadModel LoadSpec LoadProofs5 LoadProofs6 LoadProofs8 LoadProofs9 ValidModel ValidSpec ValidProofs.
Open Scope nat_scope.
Open Scope list_scope.

Section Whole.
Variables (dt : bytes) (ds : list decl) (text : bytes) (enc : option bytes) (sa : bool) (pis : list pi) (x : xnode).
Hypothesis D : dtd_text dt ds.
Hypothesis W : declared_well ds.
Hypothesis Sf : sound_for ds.
Hypothesis T : doc_text text enc sa pis x.

Lemma check_is : exists n e, pictures e x /\ forall fuel, n <= fuel -> exists d ents, loaded ds d ents /\ DtdDocSpec.dtd_ok d /\ no_any d /\
  check fuel dt text = validate fuel fuel d e.
Proof.
  destruct (load_ok dt ds D W (sound_shown ds Sf)) as (n & L). destruct (parsed_picture _ _ _ _ _ T) as (dc & nd & e & Pd & Rn & Ee & P).
  exists n, e. split; [exact P|]. intros fuel Lf. destruct (L fuel Lf) as (d & ents & E & Ld). exists d, ents. split; [exact Ld|].
  split; [exact (loaded_ok ds d ents Ld W (sf_some _ Sf) (sf_atts _ Sf))|]. split; [exact (loaded_no_any ds d ents Ld (sf_any _ Sf))|].
  unfold check. rewrite E. cbn [bind]. rewrite Pd. cbn [bind]. unfold doc_validate. rewrite Rn. cbn [of_option bind]. rewrite Ee. reflexivity.
Qed.
Lemma loaded_safe d ents : loaded ds d ents -> forall c, In c (d_elements d) -> content_safe c.
Proof.
  intros Ld c Ic. destruct (forall2_in _ _ _ c (ld_elements _ _ _ Ld) Ic) as ([y k] & Ik & _ & R). cbn [snd] in R. unfold content_safe.
  destruct k as [| | |xs|p]; [destruct R as [R _]; congruence|destruct R as [R _]; congruence|congruence| |].
  - destruct R as (R & Rl & Rm). intros _. exists (mixed xs). split; [split; assumption|apply mixed_safe].
  - destruct R as (R & q & Rl & Rm & _ & Rq). destruct (sf_kids _ Sf y p Ik) as [Hx Hs]. rewrite (Rq Hx) in *. intros _. exists p. split; [split; assumption|exact Hs].
Qed.
Lemma checked_sound : exists n, forall fuel, n <= fuel -> check fuel dt text = Ok true ->
  (forall e, In e (x_elems x) -> exists c, In (x_name e, c) (elements_of ds) /\ shape_fits c e /\ (listed ds (x_name e) -> x_atts_fit (atts_of ds (x_name e)) e)) /\
  NoDup (flat_map (x_typed ds is_id_type) (x_elems x)) /\
  (ids_present ds x -> checked_doc ds x).
Proof.
  destruct check_is as (n & e & P & C). exists n. intros fuel Lf V. destruct (C fuel Lf) as (d & ents & Ld & Ok & No & E). rewrite E in V. clear C E.
  pose proof (doc_good _ _ _ _ _ T) as G. pose proof (pictures_distinct d e x P G No) as Ad.
  assert (El : forall f, In f (elems d e) -> exists c, declared d f c /\ content_valid c f /\ atts_valid d f).
  { intros f If. destruct (doc_content_sound fuel fuel d e f Ok V If) as (c & Dc & Cv). exists c. split; [exact Dc|].
    split; [apply Cv; exact (loaded_safe d ents Ld c (proj1 Dc))|exact (doc_atts_sound fuel fuel d e f Ok V If)]. }
  pose proof (doc_ids_sound fuel fuel d e Ok Ad V) as Id.
  assert (Full : incl (flat_map (idrefs d) (elems d e)) (flat_map (ids d) (elems d e)) -> checked_doc ds x).
  { intros Rf. apply (doc_iff dt ds d ents e x D Ld No P G). split; assumption. }
  split; [|split].
  - (* the elements do not depend on the references *)
    intros y Iy. pose proof (pictures_all e x P) as F. destruct (forall2_in _ _ _ y F Iy) as (f & If & Pf). rewrite (elems_all d e No) in El.
    assert (e_name f = x_name y) as En by (inversion Pf; assumption).
    destruct (El f If) as (c & [Ic Nc] & Cv & Av). destruct (forall2_in _ _ _ c (ld_elements _ _ _ Ld) Ic) as ([m k] & Ik & R). pose proof R as [Rn _]. cbn [fst] in Rn.
    assert (m = x_name y) as -> by congruence. exists k. split; [exact Ik|]. split.
    + apply (content_iff k c f y R Pf); [|exact Cv]. intros z Iz. destruct (forall2_in _ _ _ z F (sub_trans x y z Iy Iz)) as (g & Ig & Pg).
      destruct (El g Ig) as (cg & [Icg Ng] & _). destruct (forall2_in _ _ _ cg (ld_elements _ _ _ Ld) Icg) as ([m kg] & Ikg & Rg & _). cbn [fst] in Rg.
      assert (e_name g = x_name z) as Eg by (inversion Pg; assumption). rewrite <- Eg, <- Ng, Rg. exact (dtd_toks dt ds D _ _ Ikg).
    + intros Li. apply (atts_iff _ f y Pf (G y Iy)). apply (Av (atts_of ds (x_name y))). apply (ld_attrs _ _ _ Ld). rewrite En. split; [exact Li|reflexivity].
  - pose proof (typed_all d ds ents is_id_type _ _ Ld (pictures_all e x P) G) as Ti. rewrite <- Ti. apply FinFun.Injective_map_NoDup; [intros a b [= <-]; reflexivity|].
    rewrite (elems_all d e No) in Id. exact Id.
  - intros Ip. apply Full. exact (doc_refs_sound fuel fuel d e Ok Ad (pictures_ids ds d ents e x Ld No P G Ip) V).
Qed.
Hypothesis Cf : complete_for ds.
Hypothesis Ip : ids_present ds x.
Lemma subs_bound e : exists n, forall f, In f (all_elems e) -> length (e_subs f) < n.
Proof.
  induction (all_elems e) as [|f l (n & IH)]; [exists 0; intros f []|]. exists (S (length (e_subs f)) + n). intros g [<-|I]; [lia|]. specialize (IH g I). lia.
Qed.
Lemma check_exact : exists n, forall fuel, n <= fuel -> (check fuel dt text = Ok true <-> checked_doc ds x).
Proof.
  destruct check_is as (n & e & P & C). destruct (subs_bound e) as (m & B). exists (n + m + length (all_elems e)). intros fuel Lf.
  destruct (C fuel) as (d & ents & Ld & Ok & No & ->); [lia|]. pose proof (doc_good _ _ _ _ _ T) as G.
  rewrite <- (doc_iff dt ds d ents e x D Ld No P G). apply doc_exact; [exact Ok|exact (pictures_distinct d e x P G No)|exact (pictures_ids ds d ents e x Ld No P G Ip)|apply no_any_plain; exact No| | |].
  - exact (loaded_models dt ds d ents D Ld Sf Cf).
  - rewrite (elems_all d e No). lia.
  - rewrite (elems_all d e No). intros f If. specialize (B f If). lia.
Qed.
Hypothesis En : forall y p, In (y, CKids p) (elements_of ds) -> ends p = true.
Lemma check_decides : exists n, forall fuel, n <= fuel -> exists b, check fuel dt text = Ok b /\ (b = true <-> checked_doc ds x).
Proof.
  destruct check_exact as (n1 & Ex). destruct check_is as (n & e & P & C). destruct (subs_bound e) as (m & B). exists (n1 + n + m + length (all_elems e)). intros fuel Lf.
  specialize (Ex fuel ltac:(lia)). destruct (C fuel) as (d & ents & Ld & Ok & No & Eq); [lia|]. destruct (validate_ends fuel fuel d e Ok) as (b & V).
  - intros c Ic. destruct (forall2_in _ _ _ c (ld_elements _ _ _ Ld) Ic) as ([y k] & Ik & _ & R). cbn [snd] in R. unfold content_ends.
    destruct (dtd_contents dt ds D y k Ik) as (bt & Ct).
    destruct k as [| | |xs|p]; [destruct R as [R _]; congruence|destruct R as [R _]; congruence|congruence| |].
    + destruct R as (R & Rl & Rm). intros _. exists (mixed xs). split; [exact Rl|]. split; [|reflexivity]. unfold mixed. cbn [ends is_sequence]. rewrite andb_true_r.
      assert (Q : forall l, forallb ends (map (fun x => Leaf x TOne) l) = true /\ takes_once Choice (map (fun x => Leaf x TOne) l) = true).
      { induction l as [|z l [I1 I2]]; [split; reflexivity|]. split; [exact I1|exact I2]. }
      destruct (Q (str "#PCDATA" :: xs)) as [Q1 Q2]. rewrite Q1, Q2. reflexivity.
    + destruct R as (R & q & Rl & Rm & _ & Rq). destruct (sf_kids _ Sf y p Ik) as [Hx Hs]. rewrite (Rq Hx) in *. intros _. exists p. split; [exact Rl|].
      split; [exact (En y p Ik)|]. inversion Ct; subst. reflexivity.
  - apply no_any_plain; exact No.
  - rewrite (elems_all d e No). lia.
  - rewrite (elems_all d e No). intros f If. specialize (B f If). lia.
  - exists b. rewrite Eq in *. rewrite V in *. split; [reflexivity|]. rewrite <- Ex. split; [intros ->; reflexivity|intros [= ->]; reflexivity].
Qed.
Lemma valid_checked : valid_doc ds x -> checked_doc ds x.
Proof.
  intros [V1 V2]. split; [|exact V2]. intros e Ie. destruct (V1 e Ie) as (c & Ic & Cv & Av). exists c. split; [exact Ic|]. split; [|intros _; exact Av].
  destruct c as [| | |xs|p]; cbn [shape_fits content_fits] in *; try exact Cv; [|apply Cv]. unfold x_no_text, x_subs. rewrite Cv. split; reflexivity.
Qed.
Lemma valid_accepted : valid_doc ds x -> exists n, forall fuel, n <= fuel -> check fuel dt text = Ok true.
Proof. intros V. destruct check_exact as (n & E). exists n. intros fuel Lf. apply (E fuel Lf). apply valid_checked. exact V. Qed.
End Whole.
