(** Declarations of attributes and entities. *)
From Verif Require Import Prelude StrModel StrSpec StrProofs StrProofs2 StrProofs3 TreeModel StreamModel StreamProofs ParseModel ParseProofs
  XmlSpec GramProofs GramProofs2 DtdModel DtdSpec DtdDocModel LoadModel LoadSpec LoadProofs LoadProofs2 LoadProofs3 LoadProofs5 LoadProofs6.
Open Scope Z_scope.
Local Arguments Z.of_nat : simpl never.
Local Arguments Z.to_nat : simpl never.
Local Arguments Z.add : simpl never.
Local Arguments Z.sub : simpl never.
Local Arguments Z.eqb : simpl never.
Local Arguments Z.ltb : simpl never.
Local Arguments Z.leb : simpl never.

(** ** the values of an enumeration *)
Lemma lead_unique : forall l t l' t', forallb white l = true -> forallb white l' = true ->
  match t with [] => False | c :: _ => white c = false end -> match t' with [] => False | c :: _ => white c = false end -> l ++ t = l' ++ t' -> l = l' /\ t = t'.
Proof.
  induction l as [|c l IH]; intros t l' t' B B' H H' E.
  - destruct l' as [|c' l']; [split; [reflexivity|exact E]|]. cbn [app] in E. subst t. cbn [forallb] in B'. apply andb_true_iff in B' as [W _]. congruence.
  - cbn [forallb] in B. apply andb_true_iff in B as [W B]. destruct l' as [|c' l'].
    + cbn [app] in E. subst t'. congruence.
    + cbn [app] in E. injection E as -> E. cbn [forallb] in B'. apply andb_true_iff in B' as [_ B']. destruct (IH t l' t' B B' H H' E) as [-> ->]. auto.
Qed.
Lemma forallb_rev {A} (f : A -> bool) l : forallb f (rev l) = forallb f l.
Proof. induction l as [|x l IH]; [reflexivity|]. cbn [rev]. rewrite forallb_app, IH. cbn [forallb]. rewrite andb_true_r. apply andb_comm. Qed.
Lemma tok_ends v : is_tok v -> match v with [] => False | c :: _ => white c = false end /\ match rev v with [] => False | c :: _ => white c = false end.
Proof.
  intros [N H]. assert (G : forall u, u <> [] -> forallb tok_char u = true -> match u with [] => False | c :: _ => white c = false end).
  { intros [|c u] Nu Hu; [congruence|]. cbn [forallb] in Hu. apply andb_true_iff in Hu as [Hu _]. apply andb_true_iff in Hu as [Hu _]. apply name_white, Hu. }
  split; apply G; try assumption; [|rewrite forallb_rev; exact H]. intros E. apply (f_equal (@rev ascii)) in E. rewrite rev_involutive in E. contradiction.
Qed.
Lemma trimmed_tok w v w' t : blank w -> is_tok v -> blank w' -> trimmed (w ++ v ++ w') t -> t = v.
Proof.
  intros B V B' (l & r & E & Bl & Br & Hh & Ht). destruct (tok_ends v V) as [V1 V2].
  assert (Nt : t <> []).
  { intros ->. cbn [app] in E. assert (forallb white (w ++ v ++ w') = true) as Q by (rewrite E, forallb_app, Bl, Br; reflexivity).
    rewrite !forallb_app in Q. apply andb_true_iff in Q as [_ Q]. apply andb_true_iff in Q as [Q _]. destruct v as [|c v]; [exact V1|]. cbn [forallb] in Q.
    apply andb_true_iff in Q as [Q _]. congruence. }
  assert (v ++ w' = t ++ r) as E2.
  { apply (lead_unique w (v ++ w') l (t ++ r)); try assumption; [destruct v; [destruct V1|exact V1]|destruct t; [congruence|exact Hh]]. }
  apply (f_equal (@rev ascii)) in E2. rewrite !rev_app_distr in E2.
  assert (rev v = rev t) as E3.
  { apply (lead_unique (rev w') (rev v) (rev r) (rev t)); try assumption; try (rewrite forallb_rev; assumption).
    destruct (rev t) eqn:Q; [|exact Ht]. apply (f_equal (@rev ascii)) in Q. rewrite rev_involutive in Q. contradiction. }
  apply (f_equal (@rev ascii)) in E3. rewrite !rev_involutive in E3. auto.
Qed.
Lemma pieces_lead c0 : forall u s x l, XmlSpec.has c0 u = false -> pieces [[c0]] s (x :: l) -> pieces [[c0]] (u ++ s) ((u ++ x) :: l).
Proof.
  induction u as [|c u IH]; intros s x l H P; [exact P|]. cbn [XmlSpec.has existsb] in H. apply orb_false_iff in H as [H1 H2]. cbn [app].
  apply pieces_char; [|apply IH; assumption]. cbn [cut_at after]. rewrite H1. reflexivity.
Qed.
Lemma bar_free w : blank w \/ is_tok w -> XmlSpec.has "|" w = false.
Proof.
  intros [H|[_ H]]; induction w as [|c w IH]; [reflexivity| |reflexivity|]; unfold blank in H; cbn [forallb] in H; apply andb_true_iff in H as [H1 H2];
    cbn [XmlSpec.has existsb]; (destruct (Ascii.eqb_spec "|" c) as [<-|]; [discriminate|]); cbn [orb]; apply IH; exact H2.
Qed.
Lemma has_parts c a b : XmlSpec.has c a = false -> XmlSpec.has c b = false -> XmlSpec.has c (a ++ b) = false.
Proof. intros H1 H2. rewrite has_app, H1, H2. reflexivity. Qed.
Lemma values_pieces b vs : values_text b vs -> exists l, pieces [["|"%char]] b l /\ Forall2 (fun x v => exists w w', blank w /\ blank w' /\ is_tok v /\ x = w ++ v ++ w') l vs.
Proof.
  intros V. induction V as [w v w' B T B'|w v w' u l B T B' V IH].
  - exists [w ++ v ++ w']. split; [|constructor; [exists w, w'; auto|constructor]].
    rewrite <- (app_nil_r (w ++ v ++ w')) at 1. replace [w ++ v ++ w'] with [(w ++ v ++ w') ++ []] by (rewrite app_nil_r; reflexivity).
    apply pieces_lead; [|constructor]. rewrite !has_app, !bar_free by auto. reflexivity.
  - destruct IH as (xs & P & F). exists ((w ++ v ++ w') :: xs). split; [|constructor; [exists w, w'; auto|exact F]].
    replace (w ++ v ++ w' ++ str "|" ++ u) with ((w ++ v ++ w') ++ "|"%char :: u) by (rewrite <- !app_assoc; reflexivity).
    rewrite <- (app_nil_r (w ++ v ++ w')) at 2. apply pieces_lead; [rewrite !has_app, !bar_free by auto; reflexivity|].
    eapply pieces_cut; [reflexivity|exact P].
Qed.
Lemma blank_nul w : blank w -> nul_free w.
Proof. intros B I. unfold blank in B. rewrite forallb_forall in B. specialize (B _ I). discriminate. Qed.
Lemma values_nul b vs : values_text b vs -> nul_free b /\ XmlSpec.has ")" b = false /\ b <> [].
Proof.
  assert (T1 : forall v, is_tok v -> nul_free v) by (intros v T; apply name_nul, (tok_name v T)).
  assert (T2 : forall v, blank v \/ is_tok v -> XmlSpec.has ")" v = false).
  { intros v [H|[_ H]]; induction v as [|c v IH]; [reflexivity| |reflexivity|]; unfold blank in H; cbn [forallb] in H; apply andb_true_iff in H as [H1 H2];
    cbn [XmlSpec.has existsb]; (destruct (Ascii.eqb_spec ")" c) as [<-|]; [discriminate|]); cbn [orb]; apply IH; exact H2. }
  assert (Ap : forall a b, nul_free a -> nul_free b -> nul_free (a ++ b)) by (intros a c Na Nc I; apply in_app_or in I as [I|I]; auto).
  assert (Nn : forall w v z : bytes, is_tok v -> w ++ v ++ z <> []).
  { intros w v z [N _] E. apply app_eq_nil in E as [_ E]. apply app_eq_nil in E as [E _]. contradiction. }
  intros V. induction V as [w v w' B T B'|w v w' u l B T B' V (N1 & N2 & _)].
  - split; [|split; [|apply Nn; exact T]]. { repeat apply Ap; auto using blank_nul. } rewrite !has_app, !T2 by auto. reflexivity.
  - split; [|split; [|apply Nn; exact T]]. { repeat apply Ap; auto using blank_nul. intros [Q|[]]. discriminate. }
    rewrite !has_app, !T2 by auto. rewrite N2. reflexivity.
Qed.
Lemma values_read b vs : values_text b vs -> enum_values b = Ok vs.
Proof.
  intros V. destruct (values_nul b vs V) as (N & _ & Ne). destruct (enum_ok b N Ne) as (l & l' & P & T & E). rewrite E. f_equal.
  destruct (values_pieces b vs V) as (l2 & P2 & F2). change (s2b "|") with ["|"%char] in P. rewrite (pieces_fun _ _ _ P2 _ P) in T. clear -T F2.
  revert l' T. induction F2 as [|x v l vs (w & w' & B & B' & V & ->) F IH]; intros l' T; inversion T; subst; [reflexivity|]. f_equal; [|apply IH; assumption].
  match goal with H : trimmed _ _ |- _ => exact (trimmed_tok w v w' _ B V B' H) end.
Qed.
Lemma type_read t ty w s : type_text t ty -> gap1 w -> t_att_type (t ++ w ++ s) = Ok (Some (w ++ s, ty)).
Proof.
  intros T W. assert (exists c z, w ++ s = c :: z /\ white c = true) as (c & z & E & Wc).
  { destruct W as [B N]. destruct w as [|c w]; [congruence|]. exists c, (w ++ s). split; [reflexivity|]. unfold blank in B. cbn [forallb] in B. apply andb_true_iff in B. tauto. }
  rewrite E. clear E W w s.
  assert (Cs : c = " "%char \/ c = "010"%char \/ c = "009"%char \/ c = "013"%char).
  { unfold white in Wc. apply existsb_exists in Wc as (d & I & Q). apply Ascii.eqb_eq in Q. subst d. cbn in I. intuition congruence. }
  destruct T; try (destruct Cs as [->|[->|[->| ->]]]; reflexivity).
  destruct (values_nul b l H) as (N & P & _). rewrite <- !app_assoc. unfold t_att_type.
  change (t_which (str "(" ++ b ++ str ")" ++ c :: z) att_types None) with (b ++ ")"%char :: c :: z, Some (AEnum [])). cbv iota beta.
  change (s2b ")") with [")"%char]. rewrite until_char by (exact P || reflexivity). rewrite cstr_id by exact N. rewrite (values_read b l H). reflexivity.
Qed.

(** ** defaults and values *)
(** what is left does not start with a quote *)
Definition no_quote (s : bytes) : Prop := match skip s with c :: _ => ~ quote c | [] => True end.
Lemma dquote_char : dquote = ["034"%char]. Proof. reflexivity. Qed.
Lemma value_none s : no_quote s -> t_value (skip s) = (skip s, None).
Proof.
  intros H. unfold t_value, no_quote in *. destruct (skip s) as [|c z]; [reflexivity|]. rewrite dquote_char. change (s2b "'") with ["'"%char]. cbn [t_which after].
  destruct (Ascii.eqb_spec "034" c) as [<-|_]; [destruct H; right; reflexivity|]. destruct (Ascii.eqb_spec "'" c) as [<-|_]; [destruct H; left; reflexivity|]. reflexivity.
Qed.
Lemma value_some t v s : quoted t v -> t_value (skip (t ++ s)) = (s, Some v) /\ skip (t ++ s) = t ++ s /\
  (exists q, quote q /\ t = q :: v ++ [q]).
Proof.
  intros [q v0 Q N H]. assert (E : skip (([q] ++ v0 ++ [q]) ++ s) = ([q] ++ v0 ++ [q]) ++ s) by (cbn [app]; apply skip_here; destruct Q as [->| ->]; reflexivity).
  rewrite E. split; [|split; [reflexivity|exists q; auto]]. unfold t_value. rewrite dquote_char. change (s2b "'") with ["'"%char]. cbn [t_which].
  rewrite <- !app_assoc. destruct Q as [->| ->].
  - change (after ["034"%char] (["'"%char] ++ v0 ++ ["'"%char] ++ s)) with (@None bytes).
    change (after ["'"%char] (["'"%char] ++ v0 ++ ["'"%char] ++ s)) with (Some (v0 ++ "'"%char :: s)). cbv iota.
    rewrite until_char by (exact H || reflexivity). rewrite cstr_id by exact N. reflexivity.
  - change (after ["034"%char] (["034"%char] ++ v0 ++ ["034"%char] ++ s)) with (Some (v0 ++ "034"%char :: s)). cbv iota.
    rewrite until_char by (exact H || reflexivity). rewrite cstr_id by exact N. reflexivity.
Qed.
Lemma default_read t df v s : default_text t df v -> no_quote s ->
  exists s1 s2, skip (t ++ s) = t ++ s /\ t_default (t ++ s) = Some (s1, df) /\ t_value (skip s1) = (s2, v) /\ skip s2 = skip s.
Proof.
  intros D Q. destruct D as [| |w t v W T|t v T].
  - exists s, (skip s). split; [reflexivity|]. split; [reflexivity|]. rewrite value_none by exact Q. split; [reflexivity|apply skip_skip].
  - exists s, (skip s). split; [reflexivity|]. split; [reflexivity|]. rewrite value_none by exact Q. split; [reflexivity|apply skip_skip].
  - destruct (value_some t v s T) as (V & Sk & q & Hq & Et). exists (t ++ s), s. split; [reflexivity|]. split; [|split; [exact V|reflexivity]].
    rewrite <- !app_assoc. unfold t_default. change (t_which (str "#FIXED" ++ w ++ t ++ s) _ None) with (str "#FIXED" ++ w ++ t ++ s, @None at_default). cbv iota beta.
    change (after (s2b "#FIXED") (str "#FIXED" ++ w ++ t ++ s)) with (Some (w ++ t ++ s)). cbv iota beta.
    rewrite skip_blank by apply W. rewrite Sk. rewrite Et. destruct Hq as [->| ->]; reflexivity.
  - destruct (value_some t v s T) as (V & Sk & q & Hq & Et). exists (t ++ s), s. split; [exact Sk|]. split; [|split; [exact V|reflexivity]].
    rewrite Et. destruct Hq as [->| ->]; reflexivity.
Qed.

(** ** the attributes of a declaration *)
Lemma t_atts_skip f ents s s' decls id idref : skip s = skip s' -> t_atts f ents s decls id idref = t_atts f ents s' decls id idref.
Proof. intros E. destruct f; [reflexivity|]. cbn [t_atts]. rewrite E. reflexivity. Qed.
Lemma name_first x : is_name x -> exists c y, x = c :: y /\ name_char c = true.
Proof. intros [N H]. destruct x as [|c y]; [congruence|]. exists c, y. cbn [forallb] in H. apply andb_true_iff in H as [H _]. auto. Qed.
Lemma atts_no_quote t l w k : atts_text t l -> blank w -> no_quote (t ++ w ++ ">"%char :: k).
Proof.
  intros A B. unfold no_quote. destruct A as [|t a u l T A].
  - cbn [app]. rewrite skip_app_here by (exact B || reflexivity). intros [Q|Q]; discriminate.
  - destruct T as [w0 x w1 t ty w2 t' df v W X]. destruct (name_first x X) as (c & y & -> & Hc). rewrite <- !app_assoc. cbn [app].
    rewrite skip_app_here; [|apply W|apply name_white, Hc]. intros [->| ->]; discriminate.
Qed.
Lemma type_head t ty s : type_text t ty -> exists c z, t ++ s = c :: z /\ white c = false /\ c <> "%"%char.
Proof. intros T. destruct T; do 2 eexists; (split; [reflexivity|split; [reflexivity|discriminate]]). Qed.
Lemma not_bad_id decls x ty df v l : atts_good (decls ++ AtDecl x ty df v :: l) -> bad_id decls x ty df = false.
Proof.
  intros (G1 & G2 & _). unfold bad_id. destruct ty; try reflexivity.
  assert (I : In (AtDecl x AId df v) (decls ++ AtDecl x AId df v :: l)) by (apply in_or_app; right; left; reflexivity).
  apply orb_false_iff. split.
  - destruct (find is_id (decls ++ [AtDecl x AId df None])) as [b|] eqn:F; [|reflexivity]. apply negb_false_iff, bytes_eqb_eq.
    apply find_some in F as [Ib Tb]. apply in_app_or in Ib as [Ib|[<-|[]]]; [|reflexivity]. unfold is_id in Tb. destruct (ad_type b) eqn:Eb; try discriminate.
    exact (G1 b _ (in_or_app _ _ _ (or_introl Ib)) I Eb eq_refl).
  - specialize (G2 _ I eq_refl). cbn [ad_default] in G2. destruct df; try reflexivity. congruence.
Qed.
Lemma not_bad_enum decls x ty df v l : atts_good (decls ++ AtDecl x ty df v :: l) -> bad_enum ty v = false.
Proof.
  intros (_ & _ & G). unfold bad_enum. destruct ty; try reflexivity. destruct v as [v|]; [|reflexivity]. apply negb_false_iff, existsb_exists.
  exists v. split; [|apply bytes_eqb_refl]. eapply (G (AtDecl x (AEnum _) df (Some v))); [apply in_or_app; right; left; reflexivity|reflexivity|reflexivity].
Qed.
Lemma atts_read ents : forall t l, atts_text t l -> forall f w k decls id idref, (length l < f)%nat -> blank w -> atts_good (decls ++ l) ->
  t_atts f ents (t ++ w ++ ">"%char :: k) decls id idref =
    Ok (Some (k, (decls ++ l, id || existsb (fun a => is_id_type (ad_type a)) l, idref || existsb (fun a => is_ref_type (ad_type a)) l))).
Proof.
  intros t l A. induction A as [|t a u l T A IH]; intros f w k decls id idref L B G; (destruct f as [|f]; [lia|]).
  - cbn [app t_atts]. rewrite skip_app_here by (exact B || reflexivity). change (after (s2b ">") (">"%char :: k)) with (Some k). cbn [existsb].
    rewrite app_nil_r, !orb_false_r. reflexivity.
  - destruct T as [w0 x w1 t ty w2 t' df v W X W1 T W2 D]. destruct (name_first x X) as (c & y & Ex & Hc). cbn [t_atts]. rewrite <- !app_assoc.
    rewrite (skip_gap w0 _ c (y ++ w1 ++ t ++ w2 ++ t' ++ u ++ w ++ ">"%char :: k)); [|apply W|rewrite Ex; reflexivity|apply name_white, Hc].
    replace (after (s2b ">") (x ++ w1 ++ t ++ w2 ++ t' ++ u ++ w ++ ">"%char :: k)) with (@None bytes).
    2:{ rewrite Ex. change (s2b ">") with [">"%char]. cbn [app after]. destruct (Ascii.eqb_spec ">" c) as [<-|]; [discriminate|reflexivity]. }
    destruct (until_gap x w1 (t ++ w2 ++ t' ++ u ++ w ++ ">"%char :: k) (proj2 X) W1) as (b & U). rewrite U. clear U.
    destruct (type_head t ty (w2 ++ t' ++ u ++ w ++ ">"%char :: k) T) as (c1 & z1 & E1 & Wc1 & Nc1).
    rewrite (skip_gap w1 _ c1 z1) by (apply W1 || assumption).
    replace (t_expand (t ++ w2 ++ t' ++ u ++ w ++ ">"%char :: k) ents) with (Some (t ++ w2 ++ t' ++ u ++ w ++ ">"%char :: k)).
    2:{ rewrite E1. unfold t_expand. change (s2b "%") with ["%"%char]. cbn [after]. destruct (Ascii.eqb_spec "%" c1); [congruence|reflexivity]. }
    rewrite (type_read t ty w2 _ T W2). cbn [bindo bind].
    destruct (default_read t' df v (u ++ w ++ ">"%char :: k) D (atts_no_quote u l w k A B)) as (s1 & s2 & Sk & Ed & Ev & E2).
    rewrite skip_blank by apply W2. rewrite Sk, Ed, (cstr_id x) by (apply name_nul, X).
    rewrite (not_bad_id decls x ty df v l G), Ev. rewrite (not_bad_enum decls x ty df v l G).
    rewrite (t_atts_skip f ents s2 (u ++ w ++ ">"%char :: k)) by exact E2. rewrite IH; [|cbn [length] in L; lia|exact B|rewrite <- app_assoc; exact G].
    rewrite <- app_assoc. cbn [app existsb ad_type]. unfold flag_id. rewrite <- !orb_assoc. reflexivity.
Qed.
Lemma attlist_text f w x t l w2 k o : gap1 w -> is_name x -> atts_text t l -> blank w2 -> (l = [] -> w2 <> []) -> (length l < f)%nat ->
  atts_good (decls_of (l_attrs o) x ++ l) ->
  t_attlist f (w ++ x ++ t ++ w2 ++ ">"%char :: k) o =
    Ok (Some (k, Load (l_elements o) (put_attr (l_attrs o) x (decls_of (l_attrs o) x ++ l)) (l_entities o)
                   (l_id o || existsb (fun a => is_id_type (ad_type a)) l) (l_idref o || existsb (fun a => is_ref_type (ad_type a)) l))).
Proof.
  intros W X A B Ne L G. unfold t_attlist. destruct (name_first x X) as (c & y & Ex & Hc).
  rewrite (skip_gap w _ c (y ++ t ++ w2 ++ ">"%char :: k)); [|apply W|rewrite Ex; reflexivity|apply name_white, Hc].
  assert (exists b, until [s2b " "] (x ++ t ++ w2 ++ ">"%char :: k) = Some (x, 0, t ++ w2 ++ ">"%char :: k, b)) as (b & U).
  { destruct A as [|t a u l T A].
    - cbn [app]. apply until_gap; [apply X|]. split; [exact B|apply Ne; reflexivity].
    - destruct T as [w0 x0 w1 t ty w3 t' df v W0]. rewrite <- !app_assoc. apply until_gap; [apply X|exact W0]. }
  rewrite U, (cstr_id x) by (apply name_nul, X). rewrite (atts_read (l_entities o) t l A f w2 k _ _ _ L B G). reflexivity.
Qed.

(** ** entities *)
Lemma entity_read z ty x w1 t v w2 k o w : 
  (z = [] /\ ty = EGeneral \/ exists w0, gap1 w0 /\ z = str "%" ++ w0 /\ ty = EParameter) ->
  gap1 w -> is_tok x -> gap1 w1 -> quoted t v -> blank w2 ->
  t_entity (str "<!ENTITY" ++ w ++ z ++ x ++ w1 ++ t ++ w2 ++ ">"%char :: k) o =
    Some (k, Load (l_elements o) (l_attrs o) (l_entities o ++ [Entity x ty (Some v)]) (l_id o) (l_idref o)).
Proof.
  intros Z W X W1 T B. unfold t_entity.
  match goal with |- context [skip (str "<!ENTITY" ++ ?z)] => change (after (s2b "<!ENTITY") (skip (str "<!ENTITY" ++ z))) with (Some z) end. cbv iota.
  destruct (tok_head x X) as (c & y & Ex & Wc & _ & _ & Np).
  set (r := w1 ++ t ++ w2 ++ ">"%char :: k).
  assert (E : match after (s2b "%") (skip (w ++ z ++ x ++ r)) with Some s => (skip s, EParameter) | None => (skip (w ++ z ++ x ++ r), EGeneral) end = (x ++ r, ty)).
  { destruct Z as [[-> ->]|(w0 & W0 & -> & ->)].
    - cbn [app]. rewrite (skip_gap w _ c (y ++ r)); [|apply W|rewrite Ex; reflexivity|exact Wc].
      replace (after (s2b "%") (x ++ r)) with (@None bytes); [reflexivity|]. rewrite Ex. change (s2b "%") with ["%"%char]. cbn [app after].
      destruct (Ascii.eqb_spec "%" c); [congruence|reflexivity].
    - rewrite <- !app_assoc. change (str "%" ++ w0 ++ x ++ r) with ("%"%char :: w0 ++ x ++ r). rewrite skip_app_here by (apply W || reflexivity).
      change (after (s2b "%") ("%"%char :: w0 ++ x ++ r)) with (Some (w0 ++ x ++ r)). cbv iota.
      rewrite (skip_gap w0 _ c (y ++ r)); [reflexivity|apply W0|rewrite Ex; reflexivity|exact Wc]. }
  rewrite E. clear E. destruct (until_gap x w1 (t ++ w2 ++ ">"%char :: k) (proj2 (tok_name x X)) W1) as (b & U). subst r. rewrite U.
  rewrite skip_blank by apply W1. destruct (value_some t v (w2 ++ ">"%char :: k) T) as (V & Sk & q & Hq & Et). rewrite Sk.
  rewrite (cstr_id x) by (apply name_nul, (tok_name x X)). destruct T as [q' v Q N H]. injection Et as -> _. rewrite <- !app_assoc.
  assert (Wh : t_which ([q] ++ v ++ [q] ++ w2 ++ ">"%char :: k) ent_starts None = (v ++ q :: w2 ++ ">"%char :: k, Some (Some [q]))) by (destruct Q as [->| ->]; reflexivity).
  rewrite Wh, until_char by (exact H || destruct Q as [->| ->]; reflexivity).
  rewrite (cstr_id v) by exact N. rewrite skip_app_here by (exact B || reflexivity). reflexivity.
Qed.
