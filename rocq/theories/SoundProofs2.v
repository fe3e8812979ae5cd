(** Properties of every element of an accepted document. *)
From Coq Require Import Permutation.
From Verif Require Import Prelude StrSpec StrProofs EscProofs StrProofs2 HashSpec AttrModel AttrSpec AttrProofs TreeModel StreamProofs ParseModel XmlSpec ParseProofs ParseProofs2 GramProofs GramProofs2 GramProofs4 GramProofs5 SoundSpec SoundProofs.
Open Scope list_scope.
Open Scope Z_scope.

Lemma every_app P l m : every_items P l -> every_items P m -> every_items P (l ++ m).
Proof. intros H K. induction H; cbn [app]; [exact K|constructor; assumption|apply every_other; assumption]. Qed.
Lemma misc_every P s l : misc_loose s l -> every_items P l.
Proof. intros H. induction H; try constructor; try assumption; intros ? E; discriminate. Qed.
Lemma elem_every s n : elem_loose s n -> every (fun n => exists ats, attrs_of (n_attrs n) ats) n.
Proof.
  intros H. apply (elem_ind2 (fun s n _ => every (fun n => exists ats, attrs_of (n_attrs n) ats) n)
    (fun s l _ => every_items (fun n => exists ats, attrs_of (n_attrs n) ats) l) ) with (b := s); try exact H; clear; intros.
  - constructor; [eexists; eassumption|constructor].
  - constructor; [eexists; eassumption|assumption].
  - constructor.
  - apply every_app; [eapply misc_every; eassumption|assumption].
  - apply every_other; [intros ? E; discriminate|assumption].
  - apply every_other; [intros ? E; discriminate|assumption].
  - apply every_app; [eapply misc_every; eassumption|]. constructor; assumption.
Qed.
Lemma every_imp (P Q : node -> Prop) : (forall n, P n -> Q n) -> forall n, every P n -> every Q n.
Proof.
  intros I. refine (fix F n H {struct H} := match H with Every _ name a l p q => Every Q name a l (I _ p) (
    (fix G l (H : every_items P l) {struct H} : every_items Q l := match H with every_nil _ => every_nil Q | every_elem _ n l p q => every_elem Q n l (F n p) (G l q)
       | every_other _ i l p q => every_other Q i l p (G l q) end) l q) end).
Qed.

Section Every.
Variable content : bytes.
Variable A : bytes -> attrs -> Prop.
Hypothesis tags : forall u s d r d' a name e, content = u ++ s -> a_tag s d = Some (r, d', a, name, e) -> A name a.
Let P (n : node) : Prop := A (n_name n) (n_attrs n).
Lemma every_add n l : every P n -> every_items P l -> every P (node_add n l).
Proof. intros H K. destruct H as [name a m p q]. cbn [node_add]. constructor; [exact p|apply every_app; assumption]. Qed.
Definition good (d : pdoc) : Prop := Forall (every P) (p_stack d) /\ (forall n, p_root d = Some n -> every P n).
Lemma stack_every s l : Forall (every P) s -> every_items P l -> Forall (every P) (stack_add s l).
Proof. intros H K. destruct H; cbn [stack_add]; constructor; [apply every_add; assumption|assumption]. Qed.
Lemma every_one n : every P n -> every_items P [INode n].
Proof. intros. constructor; [assumption|constructor]. Qed.
Lemma every_oth i : (forall n, i <> INode n) -> every_items P [i].
Proof. intros. apply every_other; [assumption|constructor]. Qed.
Lemma comments_every f s d r d' : a_comments_loop f s d = Some (r, d') -> good d -> good d' /\ exists m, s = m ++ r.
Proof.
  intros H [G1 G2]. destruct (comments_sound _ _ _ _ _ H) as (m & l & E & M & S & R). split; [|eauto].
  split; [rewrite S; apply stack_every; [exact G1|eapply misc_every; exact M]|rewrite R; exact G2].
Qed.
Lemma node_every u s d r d' e : content = u ++ s -> a_node s d = Some (r, d', e) -> good d -> good d' /\ exists m, s = m ++ r.
Proof.
  intros Ec H G. rewrite a_node_eq in H. destruct (a_comments s d) as [[s1 d1]|] eqn:C; [|discriminate].
  destruct (comments_every _ _ _ _ _ C G) as ([G1 G2] & m & E1).
  destruct (match after (s2b "<") s1 with Some s => Some s | None => match s1 with [] => None | _ => Some s1 end end) as [s2|] eqn:B; [|discriminate].
  assert (Hb : exists b, s1 = b ++ s2).
  { destruct (after (s2b "<") s1) as [z|] eqn:Az; [injection B as <-; apply after_Some in Az; exists (str "<"); auto|].
    destruct s1; [discriminate|]. injection B as <-. exists []. auto. }
  destruct Hb as (b & Eb). unfold a_open in H. destruct (a_tag s2 d1) as [[[[[s3 d3] a] name] e']|] eqn:T; [|discriminate].
  assert (HP : A name a) by (eapply (tags (u ++ m ++ b)); [rewrite Ec, E1, Eb, <- !app_assoc; reflexivity|exact T]).
  destruct (tag_sound _ _ _ _ _ _ _ T) as (o & ats & E3 & _ & _ & S3 & R3).
  assert (Ex : exists m, s = m ++ s3) by (exists (m ++ b ++ o); rewrite E1, Eb, E3, <- !app_assoc; reflexivity).
  destruct e'; injection H as <- <- <-; (split; [|exact Ex]).
  - unfold add_node. destruct (p_stack d3) eqn:S3'.
    + split; [cbn; rewrite S3'; constructor|]. cbn. intros n Hn. injection Hn as <-. constructor; [exact HP|constructor].
    + destruct (add_item_stack d3 (INode (Node name a []))) as [Sa Ra]. split; [rewrite Sa|rewrite Ra, R3; exact G2].
      apply stack_every; [rewrite S3', S3; exact G1|]. apply every_one. constructor; [exact HP|constructor].
  - split; cbn; [constructor; [constructor; [exact HP|constructor]|rewrite S3; exact G1]|rewrite R3; exact G2].
Qed.
Lemma item_good d i : (forall n, i <> INode n) -> good d -> good (add_item d i).
Proof.
  intros H [G1 G2]. destruct (add_item_stack d i) as [S R]. split; [rewrite S; apply stack_every; [exact G1|apply every_oth, H]|rewrite R; exact G2].
Qed.
Lemma content_every : forall f s d p r d', content = p ++ s -> good d -> a_content f s d = Some (r, d') -> good d'.
Proof.
  induction f as [|f IH]; intros s d p r d' Ec G H; [discriminate|]. cbn [a_content] in H.
  destruct s as [|c0 s0]; [injection H as <- <-; exact G|].
  remember (c0 :: s0) as s eqn:Es.
  match type of H with context [starts (s2b "<?") ?x] => set (s1 := x) in * end.
  assert (Hw : exists w, blank w /\ s = w ++ s1).
  { unfold s1. destruct (hd false (p_preserve d)); [exists []; split; reflexivity|apply skip_blank_split]. }
  destruct Hw as (w & _ & Ew).
  destruct (starts (s2b "<?") s1 || starts (s2b "<!--") s1).
  { destruct (a_comments s1 d) as [[s2 d2]|] eqn:C; [|discriminate]. destruct (comments_every _ _ _ _ _ C G) as (G' & m & E).
    eapply (IH s2 d2 (p ++ w ++ m)); [rewrite Ec, Ew, E, <- !app_assoc; reflexivity|exact G'|exact H]. }
  destruct (after (s2b "</") s1) as [s2|] eqn:A1.
  { apply after_Some in A1. destruct (a_close s2 d) as [s3|] eqn:C; [|discriminate].
    assert (Ex : exists c, s2 = c ++ s3).
    { unfold a_close in C. destruct (until _ s2) as [[[[[|c t] it] x] s4]|] eqn:U; try discriminate.
      destruct (until_char_inv ">" _ _ _ _ _ eq_refl U) as (E & _ & _). destruct (p_stack d); [discriminate|]. destruct (bytes_eqb _ _); [|discriminate]. injection C as <-.
      exists ((c :: t) ++ [">"%char]). rewrite E, <- app_assoc. reflexivity. }
    destruct Ex as (c & E3). destruct G as [G1 G2]. destruct (p_stack d) as [|n st] eqn:Sd; [discriminate|]. inversion G1; subst.
    destruct st as [|par st].
    - injection H as <- <-. split; cbn; [constructor|]. intros x Hx. injection Hx as <-. assumption.
    - match goal with X : Forall _ (par :: st) |- _ => inversion X; subst end.
      eapply (IH s3 _ (p ++ w ++ s2b "</" ++ c)); [rewrite Ew, A1, <- !app_assoc; reflexivity| |exact H].
      split; cbn; [|exact G2]. constructor; [|assumption]. rewrite add_to_eq. apply every_add; [assumption|apply every_one; assumption]. }
  destruct (after (s2b "<![CDATA[") s1) as [s2|] eqn:A2.
  { apply after_Some in A2. destruct (until _ s2) as [[[[t it] x] s3]|] eqn:U; [|discriminate].
    destruct (until_one (s2b "]]>") _ _ _ _ _ eq_refl ltac:(discriminate) U) as (E3 & _ & _).
    eapply (IH s3 _ (p ++ w ++ s2b "<![CDATA[" ++ t ++ s2b "]]>")); [rewrite Ec, Ew, A2, E3, <- !app_assoc; reflexivity| |exact H].
    apply item_good; [intros ? X; discriminate|exact G]. }
  destruct (after (s2b "<") s1) as [s2|] eqn:A3.
  { apply after_Some in A3. destruct (a_node s2 d) as [[[s3 d3] e]|] eqn:Na; [|discriminate].
    destruct (node_every (p ++ w ++ s2b "<") _ _ _ _ _ ltac:(rewrite Ec, Ew, A3, <- !app_assoc; reflexivity) Na G) as (G' & m & E).
    eapply (IH s3 d3 (p ++ w ++ s2b "<" ++ m)); [rewrite Ec, Ew, A3, E, <- !app_assoc; reflexivity|exact G'|exact H]. }
  destruct (until [s2b "<"] s) as [[[[t it] s2] s3]|] eqn:U; [|discriminate].
  destruct (until_char_inv "<" _ _ _ _ _ eq_refl U) as (E3 & E4 & _).
  eapply (IH s2 _ (p ++ t)); [rewrite Ec, E3, E4, <- app_assoc; reflexivity| |exact H].
  apply item_good; [intros ? X; discriminate|exact G].
Qed.
Lemma parse_every d n : doc_parse content = Ok (Some d) -> d_root d = Some n -> every P n.
Proof.
  rewrite parse_ok. unfold a_parse. destruct (a_header content pdoc_new) as [[[s d1]|]| |] eqn:Hh; cbn [bind]; try discriminate.
  intros H Hr. injection H as H. unfold a_body in H. destruct (a_node s (with_header d1)) as [[[s2 d2] e]|] eqn:N; [|discriminate].
  destruct (header_sound content pdoc_new s d1 eq_refl eq_refl Hh) as [(p & Ep & Hp & S1 & R1)|Ng].
  2:{ exfalso. destruct (node_sound _ _ _ _ _ N) as (m & l & b & o & name & ats & a & E & M & Hb & To & Ao & Sr).
      rewrite E in Ng. rewrite !has_app, !orb_false_iff in Ng. pose proof (tag_end _ _ _ _ To). destruct Ng as (_ & _ & Ng & _). congruence. }
  assert (G0 : good (with_header d1)) by (split; cbn; [rewrite S1; constructor|rewrite R1; discriminate]).
  destruct (node_every p _ _ _ _ _ Ep N G0) as ([G1 G2] & m & E).
  assert (K : forall d3, good d3 -> a_done d3 = Some d -> every P n).
  { intros d3 [_ G3] D. unfold a_done in D. destruct (p_stack d3); [|discriminate]. injection D as <-. apply G3. exact Hr. }
  destruct e; [apply (K d2); [split; assumption|exact H]|].
  destruct (a_content _ s2 d2) as [[s3 d3]|] eqn:C; [|discriminate]. apply (K d3); [|exact H].
  eapply (content_every _ s2 d2 (p ++ m)); [rewrite Ep, E, <- app_assoc; reflexivity|split; assumption|exact C].
Qed.
End Every.

(** ** values *)
Lemma closed_quotes_suffix u s : closed_quotes (u ++ s) -> closed_quotes s.
Proof. intros H x q v E Q. apply (H (u ++ x) q v); [rewrite E, <- app_assoc; reflexivity|exact Q]. Qed.
Lemma attrs_values : forall f s d a r d' a' e m, closed_quotes s -> arep a m -> Forall (fun p => snd p <> None) m -> a_attrs f s d a = Some (r, d', a', e) ->
  exists m', arep a' m' /\ Forall (fun p => snd p <> None) m'.
Proof.
  induction f as [|f IH]; intros s d a r d' a' e m Cq R Fm H; [discriminate|]. cbn [a_attrs] in H.
  destruct (after (s2b "/>") s) as [s1|] eqn:A1; [injection H as <- <- <- <-; eauto|].
  destruct (after (s2b ">") s) as [s1|] eqn:A2; [injection H as <- <- <- <-; eauto|].
  clear A1 A2. destruct (skip_blank_split s) as (w & Bw & Ew).
  destruct (until [s2b "="] (skip s)) as [[[[k it] x] s1]|] eqn:U; [|discriminate].
  destruct (until_char_inv "=" _ _ _ _ _ eq_refl U) as (E1 & _ & N1).
  assert (Nk : nul_free (cstr k)) by apply cstr_nul_free.
  destruct (cstr k) as [|k0 kr] eqn:Ek; [discriminate|].
  destruct (a_quote s1) as [[q s2]|] eqn:Q; [|discriminate]. destruct (a_quote_inv _ _ _ Q) as [Hq E2].
  assert (Cs : has q s2 = true /\ closed_quotes s2).
  { split; [apply (Cq (w ++ k) q s2); [rewrite Ew, E1, E2, <- app_assoc; reflexivity|exact Hq]|].
    apply (closed_quotes_suffix (w ++ k ++ ["="%char; q])). replace ((w ++ k ++ ["="%char; q]) ++ s2) with s; [exact Cq|]. rewrite Ew, E1, E2, <- !app_assoc. reflexivity. }
  destruct Cs as [Hh Cs]. destruct (a_value q s2) as [v s3] eqn:V. unfold a_value in V.
  destruct (until [[q]] s2) as [[[[v0 it0] x0] s4]|] eqn:Uv.
  2:{ apply until_none in Uv; [congruence|apply quote_ws, Hq]. }
  injection V as <- <-. destruct (until_char_inv q _ _ _ _ _ (quote_ws q Hq) Uv) as (E4 & _ & _).
  destruct (a_has a (k0 :: kr)) eqn:Ha; [discriminate|]. destruct (a_preserve _ _ _) as [pl|]; [|discriminate].
  destruct (skip_blank_split s4) as (w3 & Bw3 & Ew3).
  destruct (a_set_ok a m (k0 :: kr) (Some (cstr v0)) R Nk) as (bb & _ & R').
  eapply (IH (skip s4)); [|exact R'| |exact H].
  - apply (closed_quotes_suffix (v0 ++ q :: w3)). rewrite <- app_assoc. cbn [app]. rewrite <- Ew3, <- E4. exact Cs.
  - unfold a_add. destruct (a_find m (k0 :: kr)); [exact Fm|]. constructor; [discriminate|exact Fm].
Qed.
Lemma valued_rep a m : arep a m -> Forall (fun p => snd p <> None) m -> valued a.
Proof.
  intros R F. destruct (attrs_of_rep a m m R (Permutation_refl _)) as (l & E & P & _). exists l. split; [exact E|].
  eapply Permutation_Forall; [apply Permutation_sym; exact P|exact F].
Qed.
Lemma tag_valued s d r d' a name e : closed_quotes s -> a_tag s d = Some (r, d', a, name, e) -> valued a.
Proof.
  intros Cq. unfold a_tag. destruct (until _ s) as [[[[t it] x] s1]|] eqn:U; [|discriminate].
  destruct (until_tag _ _ _ _ _ U) as (N1 & N2 & C). destruct (cstr t) as [|t0 tr] eqn:Et; [discriminate|].
  destruct (it =? 1) eqn:I.
  - destruct C as [[-> E]|(-> & w & Hw & E)]; [discriminate|].
    destruct (A_attrs (skip s1) d no_attrs) as [[[[s2 d2] a2] e2]|] eqn:Aa; [|discriminate]. intros H; injection H as <- <- <- <- <-.
    destruct (skip_blank_split s1) as (w1 & Bw1 & Ew1).
    assert (Cs : closed_quotes (skip s1)).
    { apply (closed_quotes_suffix (t ++ w :: w1)). rewrite <- app_assoc. cbn [app]. rewrite <- Ew1, <- E. exact Cq. }
    destruct (attrs_values _ _ _ _ _ _ _ _ [] Cs arep_none ltac:(constructor) Aa) as (m' & R & F). eapply valued_rep; eassumption.
  - destruct (Ascii.eqb _ _); intros H; injection H as <- <- <- <- <-; (eapply valued_rep; [apply arep_none|constructor]).
Qed.
Lemma parse_valued content d n : closed_quotes content -> doc_parse content = Ok (Some d) -> d_root d = Some n -> every (fun n => valued (n_attrs n)) n.
Proof.
  intros Cq H R. apply (parse_every content (fun _ a => valued a) ) with (d := d); [|exact H|exact R].
  intros u s d0 r d' a name e E T. eapply tag_valued; [|exact T]. apply (closed_quotes_suffix u). rewrite <- E. exact Cq.
Qed.
Lemma parse_distinct content d n : doc_parse content = Ok (Some d) -> d_root d = Some n ->
  every (fun n => distinct (n_attrs n)) n.
Proof.
  intros H R. destruct (parse_sound _ _ H) as (n' & R' & pre & b & e & post & _ & _ & _ & El). rewrite R in R'. injection R' as <-.
  eapply every_imp; [|eapply elem_every; exact El]. intros x (ats & l & F & P & N). exists l. split; [exact F|].
  eapply Permutation_NoDup; [apply Permutation_map, Permutation_sym; exact P|exact N].
Qed.
