(** A reference in the place of the type of an attribute is read as the value. *)
From Verif Require Import Prelude StrModel StrSpec StrProofs StrProofs2 StrProofs3 TreeModel StreamModel StreamProofs ParseModel ParseProofs
  XmlSpec GramProofs GramProofs2 SoundProofs DtdModel DtdSpec DtdProofs DtdDocModel DtdDocSpec LoadModel LoadSpec
  LoadProofs LoadProofs2 LoadProofs3 LoadProofs4 LoadProofs5 LoadProofs6 LoadProofs7 LoadProofs8 RefSpec.
Open Scope nat_scope.

Lemma more_no_quote t l w y r : atts_text t l -> gap1 w -> is_name y -> no_quote (t ++ w ++ y ++ r).
Proof.
  intros A B Y. unfold no_quote. destruct A as [|t a u l T A].
  - cbn [app]. destruct (name_first y Y) as (c & z & -> & Hc). cbn [app]. rewrite skip_app_here; [|apply B|apply name_white, Hc]. intros [->| ->]; discriminate.
  - destruct T as [w0 x w1 t ty w2 t' df v W X]. destruct (name_first x X) as (c & z & -> & Hc). rewrite <- !app_assoc. cbn [app].
    rewrite skip_app_here; [|apply W|apply name_white, Hc]. intros [->| ->]; discriminate.
Qed.
(** attributes with another one after them *)
Lemma atts_more_read ents w y r : gap1 w -> is_name y -> forall t l, atts_text t l -> forall f decls id idref, atts_good (decls ++ l) ->
  t_atts (length l + f) ents (t ++ w ++ y ++ r) decls id idref =
    t_atts f ents (w ++ y ++ r) (decls ++ l) (id || existsb (fun a => is_id_type (ad_type a)) l) (idref || existsb (fun a => is_ref_type (ad_type a)) l).
Proof.
  intros B Y t l A. induction A as [|t a u l T A IH]; intros f decls id idref G.
  - cbn [app length plus existsb]. rewrite app_nil_r, !orb_false_r. reflexivity.
  - destruct T as [w0 x w1 t ty w2 t' df v W X W1 T W2 D]. destruct (name_first x X) as (c & z & Ex & Hc). cbn [length plus t_atts]. rewrite <- !app_assoc.
    rewrite (skip_gap w0 _ c (z ++ w1 ++ t ++ w2 ++ t' ++ u ++ w ++ y ++ r)); [|apply W|rewrite Ex; reflexivity|apply name_white, Hc].
    replace (after (s2b ">") (x ++ w1 ++ t ++ w2 ++ t' ++ u ++ w ++ y ++ r)) with (@None bytes).
    2:{ rewrite Ex. change (s2b ">") with [">"%char]. cbn [app after]. destruct (Ascii.eqb_spec ">" c) as [<-|]; [discriminate|reflexivity]. }
    destruct (until_gap x w1 (t ++ w2 ++ t' ++ u ++ w ++ y ++ r) (proj2 X) W1) as (b & U). rewrite U. clear U.
    destruct (type_head t ty (w2 ++ t' ++ u ++ w ++ y ++ r) T) as (c1 & z1 & E1 & Wc1 & Nc1).
    rewrite (skip_gap w1 _ c1 z1) by (apply W1 || assumption).
    replace (t_expand (t ++ w2 ++ t' ++ u ++ w ++ y ++ r) ents) with (Some (t ++ w2 ++ t' ++ u ++ w ++ y ++ r)).
    2:{ rewrite E1. unfold t_expand. change (s2b "%") with ["%"%char]. cbn [after]. destruct (Ascii.eqb_spec "%" c1); [congruence|reflexivity]. }
    rewrite (type_read t ty w2 _ T W2). cbn [bindo bind].
    destruct (default_read t' df v (u ++ w ++ y ++ r) D (more_no_quote u l w y r A B Y)) as (s1 & s2 & Sk & Ed & Ev & E2).
    rewrite skip_blank by apply W2. rewrite Sk, Ed, (cstr_id x) by (apply name_nul, X).
    rewrite (not_bad_id decls x ty df v l G), Ev. rewrite (not_bad_enum decls x ty df v l G).
    rewrite (t_atts_skip _ ents s2 (u ++ w ++ y ++ r)) by exact E2. rewrite IH by (rewrite <- app_assoc; exact G).
    rewrite <- app_assoc. cbn [app existsb ad_type]. unfold flag_id. rewrite <- !orb_assoc. reflexivity.
Qed.
Lemma att_expand ents e v f w y w1 b decls id idref : gap1 w -> is_name y -> gap1 w1 -> is_tok e -> starts_at_once v -> entity_value ents e EParameter = Some v ->
  t_atts f ents (w ++ y ++ w1 ++ str "%" ++ e ++ str ";" ++ b) decls id idref = t_atts f ents (w ++ y ++ w1 ++ v ++ str " " ++ b) decls id idref.
Proof.
  intros W Y W1 E (c & r & -> & Wc & Nc) V. destruct f as [|f]; [reflexivity|]. cbn [t_atts]. destruct (name_first y Y) as (h & z & Ey & Hh).
  set (s := str "%" ++ e ++ str ";" ++ b). set (s' := (c :: r) ++ str " " ++ b).
  rewrite (skip_gap w (y ++ w1 ++ s) h (z ++ w1 ++ s)); [|apply W|rewrite Ey; reflexivity|apply name_white, Hh].
  rewrite (skip_gap w (y ++ w1 ++ s') h (z ++ w1 ++ s')); [|apply W|rewrite Ey; reflexivity|apply name_white, Hh].
  assert (N : forall k, after (s2b ">") (y ++ k) = None).
  { intros k. rewrite Ey. change (s2b ">") with [">"%char]. cbn [app after]. destruct (Ascii.eqb_spec ">" h) as [<-|]; [discriminate|reflexivity]. }
  rewrite !N. destruct (until_gap y w1 s (proj2 Y) W1) as (b1 & ->). destruct (until_gap y w1 s' (proj2 Y) W1) as (b2 & ->).
  rewrite !skip_blank by apply W1. replace (t_expand (skip s) ents) with (t_expand (skip s') ents); [reflexivity|].
  subst s s'. cbn [app]. rewrite skip_here by exact Wc. change (skip (str "%" ++ e ++ str ";" ++ b)) with ("%"%char :: e ++ ";"%char :: b).
  unfold t_expand. change (s2b "%") with ["%"%char]. cbn [after]. destruct (Ascii.eqb_spec "%" c) as [<-|_]; [congruence|]. rewrite Ascii.eqb_refl.
  change (s2b ";") with [";"%char]. rewrite until_char.
  - rewrite (cstr_id e) by (apply name_nul, (tok_name e E)). rewrite V. reflexivity.
  - destruct E as [_ E]. clear -E. unfold XmlSpec.has. induction e as [|x e IH]; [reflexivity|]. cbn [forallb existsb] in *. apply andb_true_iff in E as [E1 E2]. rewrite (IH E2), orb_false_r.
    destruct (Ascii.eqb_spec ";" x) as [<-|]; [discriminate|reflexivity].
  - reflexivity.
Qed.
Lemma attlist_expand f w x t l w1 y w2 e v b o : gap1 w -> is_name x -> atts_text t l -> gap1 w1 -> is_name y -> gap1 w2 -> is_tok e -> starts_at_once v ->
  entity_value (l_entities o) e EParameter = Some v -> atts_good (decls_of (l_attrs o) x ++ l) -> length l <= f ->
  t_attlist f (w ++ x ++ t ++ w1 ++ y ++ w2 ++ str "%" ++ e ++ str ";" ++ b) o = t_attlist f (w ++ x ++ t ++ w1 ++ y ++ w2 ++ v ++ str " " ++ b) o.
Proof.
  intros W X A W1 Y W2 E Sv V G L. unfold t_attlist. destruct (name_first x X) as (c & z & Ex & Hc).
  assert (Sk : forall r, skip (w ++ x ++ r) = x ++ r). { intros r. apply (skip_gap w _ c (z ++ r)); [apply W|rewrite Ex; reflexivity|apply name_white, Hc]. }
  rewrite !Sk.
  assert (U : forall r, exists k, until [s2b " "] (x ++ t ++ w1 ++ r) = Some (x, 0%Z, t ++ w1 ++ r, k)).
  { intros r. destruct A as [|t a u l T A].
    - cbn [app]. apply until_gap; [apply X|exact W1].
    - destruct T as [w0 x0 w3 t ty w4 t' df u0 W0]. rewrite <- !app_assoc. apply until_gap; [apply X|exact W0]. }
  destruct (U (y ++ w2 ++ str "%" ++ e ++ str ";" ++ b)) as (k1 & ->). destruct (U (y ++ w2 ++ v ++ str " " ++ b)) as (k2 & ->).
  rewrite (cstr_id x) by (apply name_nul, X). replace f with (length l + (f - length l)) by lia.
  rewrite !(atts_more_read (l_entities o) w1 y _ W1 Y t l A) by exact G. rewrite (att_expand _ e v) by assumption. reflexivity.
Qed.
(** declarations before others *)
Lemma dtd_before : forall text ds, dtd_text text ds -> forall ds0 l, holding ds0 l -> NoDup (map fst (elements_of (ds0 ++ ds))) ->
  (forall x, atts_good (atts_of (ds0 ++ ds) x)) ->
  exists n k l' m, k <= n /\ holding (ds0 ++ ds) l' /\ misc_text false m [] /\ forall z f, n <= f -> t_dtd f (text ++ z) l 0 = t_dtd (f - k) (m ++ z) l' 0.
Proof.
  intros text ds D. induction D as [m M|m t d u ds M T D IH]; intros ds0 l H Nd Ga.
  - exists 0, 0, l, m. rewrite app_nil_r. split; [lia|]. split; [exact H|]. split; [exact M|]. intros z f _. rewrite Nat.sub_0_r. reflexivity.
  - rewrite app_cons in *. destruct (well_part ds0 d ds Nd Ga) as [Nd1 Ga1]. destruct (decl_step t d T ds0 l H Nd1 Ga1) as (n1 & l1 & H1 & _ & E1).
    destruct (IH (ds0 ++ [d]) l1 H1 Nd Ga) as (n & k & l' & m' & Lk & H' & M' & E2). exists (S (n1 + n)), (S k), l', m'. split; [lia|]. split; [exact H'|]. split; [exact M'|].
    intros z f L. destruct f as [|f]; [lia|]. rewrite <- !app_assoc. rewrite E1 by (lia || exact M). cbn [Nat.sub]. apply E2. lia.
Qed.
Lemma lookup_first a b e v : (forall o, ~ In (Entity e EParameter o) a) -> entity_value (a ++ Entity e EParameter (Some v) :: b) e EParameter = Some v.
Proof.
  intros N. unfold entity_value. induction a as [|[x ty o] a IH]; cbn [app entity_lookup en_type en_name en_content].
  - cbn. rewrite bytes_eqb_refl. reflexivity.
  - destruct (ent_eqb ty EParameter && bytes_eqb x e)%bool eqn:E; [|apply IH; intros o' I; apply (N o'); right; exact I].
    apply andb_true_iff in E as [E1 E2]. apply bytes_eqb_eq in E2. destruct ty; [discriminate|]. subst x. destruct (N o). left. reflexivity.
Qed.
Lemma parameter_value ds e v : parameter ds e v -> entity_value (entities_of ds) e EParameter = Some v.
Proof.
  intros (ds1 & ds2 & -> & N). unfold entities_of. rewrite flat_map_app. cbn [flat_map]. apply lookup_first.
  intros o I. apply in_flat_map in I as (d & Id & I). destruct d as [x c|x l|en]; [destruct I|destruct I|]. destruct I as [->|[]]. exact (N o Id).
Qed.
Lemma reference_read a ds w x t l w1 y w2 e v b : dtd_text a ds -> NoDup (map fst (elements_of ds)) -> (forall z, atts_good (atts_of ds z)) ->
  gap1 w -> is_name x -> atts_text t l -> atts_good (atts_of ds x ++ l) -> gap1 w1 -> is_name y -> gap1 w2 -> is_tok e -> parameter ds e v -> starts_at_once v ->
  exists n, forall fuel, n <= fuel ->
    dtd_parse fuel (a ++ str "<!ATTLIST" ++ w ++ x ++ t ++ w1 ++ y ++ w2 ++ str "%" ++ e ++ str ";" ++ b) =
    dtd_parse fuel (a ++ str "<!ATTLIST" ++ w ++ x ++ t ++ w1 ++ y ++ w2 ++ v ++ str " " ++ b).
Proof.
  intros D Nd Ga W X A G W1 Y W2 E P Sv.
  destruct (dtd_before a ds D [] load_new holding_new Nd Ga) as (n & k & l' & m & Lk & H & M & E1). cbn [app] in H.
  exists (n + S (length l)). intros fuel L. rewrite !parse_text, !E1 by lia.
  set (r1 := w ++ x ++ t ++ w1 ++ y ++ w2 ++ str "%" ++ e ++ str ";" ++ b). set (r2 := w ++ x ++ t ++ w1 ++ y ++ w2 ++ v ++ str " " ++ b).
  destruct (fuel - k) as [|f] eqn:Ef; [reflexivity|]. rewrite !dtd_t_S by (intros Q; apply app_eq_nil in Q as [_ Q]; discriminate).
  destruct (misc_read _ _ M (str "<!ATTLIST" ++ r1) pdoc_new) as (d1 & ->); [split; reflexivity|]. destruct (misc_read _ _ M (str "<!ATTLIST" ++ r2) pdoc_new) as (d2 & ->); [split; reflexivity|].
  change (skip (str "<!ATTLIST" ++ r1)) with (str "<!ATTLIST" ++ r1). change (skip (str "<!ATTLIST" ++ r2)) with (str "<!ATTLIST" ++ r2).
  change (after (s2b "<!ELEMENT") (str "<!ATTLIST" ++ r1)) with (@None bytes). change (after (s2b "<!ELEMENT") (str "<!ATTLIST" ++ r2)) with (@None bytes).
  change (after (s2b "<!ATTLIST") (str "<!ATTLIST" ++ r1)) with (Some r1). change (after (s2b "<!ATTLIST") (str "<!ATTLIST" ++ r2)) with (Some r2). cbv iota.
  subst r1 r2. rewrite (attlist_expand f w x t l w1 y w2 e v b l'); try assumption; [reflexivity| | |lia].
  - rewrite (h_ents _ _ H). apply parameter_value, P.
  - rewrite (proj1 (decls_read ds _ x (h_atts _ _ H))). exact G.
Qed.
