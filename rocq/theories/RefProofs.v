(** Loading ends when no parameter entity names itself. *)
From Verif Require Import Prelude StrModel StrSpec StrProofs StrProofs2 StrProofs3 TreeModel XmlSpec StreamModel StreamProofs ParseModel ParseProofs
  GramProofs SoundProofs DtdModel DtdDocModel DtdDocSpec LoadModel LoadSpec LoadProofs LoadProofs2 LoadProofs3 LoadProofs4 LoadProofs9 RefSpec.
From Verif Require LoadProofs8 DtdDocProofs4.
Open Scope nat_scope.

Lemma lookup_in : forall l n v, entity_value l n EParameter = Some v -> In (Entity n EParameter (Some v)) l.
Proof.
  induction l as [|e l IH]; intros n v H; unfold entity_value in *; cbn [entity_lookup] in H; [discriminate|].
  destruct (ent_eqb (en_type e) EParameter && bytes_eqb (en_name e) n) eqn:E; [|right; apply IH, H].
  apply andb_true_iff in E as [E1 E2]. apply bytes_eqb_eq in E2. destruct e as [x [] c]; [discriminate|]. cbn in *. subst. left. reflexivity.
Qed.
Lemma until_semi_none s : until [s2b ";"] s = None -> XmlSpec.has ";" s = false.
Proof.
  induction s as [|c s IH]; intros H; [reflexivity|]. change (s2b ";") with [";"%char] in *. cbn [until] in H. unfold stop_at in H. cbn [existsb andb orb hit] in H.
  change (ws_chunk [";"%char]) with false in H. cbn [andb orb after] in H. cbn [XmlSpec.has existsb].
  destruct (Ascii.eqb ";" c); [discriminate|]. cbn [orb]. apply IH. destruct (until _ s) as [[[[t i] a] b]|]; [discriminate|reflexivity].
Qed.

(** ** the weight of a text: its length when all references in it are replaced *)
Section Weight.
Variable val : bytes -> option bytes.
Definition ref_at (s : bytes) : option bytes := match until [s2b ";"] s with Some (x, _, _, _) => val (cstr x) | None => None end.
Fixpoint weight (k : nat) : bytes -> nat :=
  fix go (s : bytes) : nat :=
    match s with
    | [] => 0
    | c :: s => S (go s + (if Ascii.eqb "%" c
                           then match k with O => 0 | S k => match ref_at s with Some v => weight k (v ++ s2b " ") | None => 0 end end
                           else 0))
    end.
Definition cost (k : nat) (s : bytes) : nat := match k with O => 0 | S k => match ref_at s with Some v => weight k (v ++ s2b " ") | None => 0 end end.
Lemma weight_cons k c s : weight k (c :: s) = S (weight k s + if Ascii.eqb "%" c then cost k s else 0).
Proof. destruct k; reflexivity. Qed.
Lemma weight_nil k : weight k [] = 0.
Proof. destruct k; reflexivity. Qed.
Lemma weight_tail k a b : tail_of a b -> weight k a <= weight k b.
Proof. intros [x ->]. induction x as [|c x IH]; [apply le_n|]. cbn [app]. rewrite weight_cons. lia. Qed.
Lemma weight_lt k c a b : tail_of a b -> weight k a < weight k (c :: b).
Proof. intros T. apply (weight_tail k) in T. rewrite weight_cons. lia. Qed.
Lemma weight_eats k a b : eats a b -> weight k a < weight k b.
Proof.
  intros [[x E] L]. subst b. destruct x as [|c x]; [cbn in L; lia|]. cbn [app]. apply weight_lt. exists x. reflexivity.
Qed.
(** values are strings, names have no space in them *)
Hypothesis val_ok : forall n v, val n = Some v -> nul_free v /\ ~ In " "%char n.
Lemma cstr_space u r : nul_free u -> In " "%char (cstr (u ++ " "%char :: r)).
Proof.
  induction u as [|c u IH]; intros N; [left; reflexivity|]. cbn [app cstr]. destruct (Ascii.eqb_spec c NUL) as [->|]; [destruct N; left; reflexivity|].
  right. apply IH. intros I. apply N. right. exact I.
Qed.
Lemma ref_local u r : nul_free u -> ref_at (u ++ s2b " " ++ r) = ref_at (u ++ s2b " ").
Proof.
  intros N. unfold ref_at. destruct (until [s2b ";"] (u ++ s2b " ")) as [[[[x i] a] b]|] eqn:U.
  - apply until_char_inv in U as (E & _ & H); [|reflexivity]. rewrite app_assoc, E, <- app_assoc. cbn [app].
    change (s2b ";") with [";"%char]. rewrite until_char by (exact H || reflexivity). reflexivity.
  - apply until_semi_none in U. destruct (until [s2b ";"] (u ++ s2b " " ++ r)) as [[[[x i] a] b]|] eqn:U2; [|reflexivity].
    apply until_char_inv in U2 as (E & _ & H); [|reflexivity]. destruct (val (cstr x)) as [v|] eqn:V; [|reflexivity]. exfalso. apply val_ok in V as [_ V]. apply V.
    assert (exists z, x = u ++ " "%char :: z) as (z & ->).
    { clear V. revert x E H. change (s2b " " ++ r) with (" "%char :: r). change (s2b " ") with [" "%char] in U.
      clear N. induction u as [|c u IH]; intros x E H; destruct x as [|d x]; cbn [app] in *.
      - discriminate.
      - injection E as <- _. exists x. reflexivity.
      - injection E as -> _. discriminate.
      - injection E as <- E. cbn [XmlSpec.has existsb] in U, H. apply orb_false_iff in U as [_ U], H as [_ H]. destruct (IH U x E H) as (z & ->). exists z. reflexivity. }
    apply cstr_space, N.
Qed.
Lemma cost_local k u r : nul_free u -> cost k (u ++ s2b " " ++ r) = cost k (u ++ s2b " ").
Proof. intros N. destruct k; [reflexivity|]. cbn [cost]. rewrite ref_local by exact N. reflexivity. Qed.
Lemma weight_app k u r : nul_free u -> weight k (u ++ s2b " " ++ r) = weight k (u ++ s2b " ") + weight k r.
Proof.
  induction u as [|c u IH]; intros N.
  - change (s2b " " ++ r) with (" "%char :: r). cbn [app]. change (s2b " ") with [" "%char]. rewrite !weight_cons, weight_nil. change (Ascii.eqb "%" " ") with false. cbv iota. lia.
  - assert (N' : nul_free u) by (intros I; apply N; right; exact I). cbn [app]. rewrite !weight_cons, (IH N'), (cost_local k u r N'). lia.
Qed.
(** ranks *)
Variable rank : bytes -> nat.
Hypothesis falls : forall n v m, val n = Some v -> refers v m -> rank m < rank n.
Variable K : nat.
Hypothesis bounded : forall n v, val n = Some v -> rank n < K.
(** every name that is referred to in [s] has a rank below [k] *)
Definition below (k : nat) (s : bytes) : Prop :=
  forall a u x i b d v, s = a ++ "%"%char :: u -> until [s2b ";"] u = Some (x, i, b, d) -> val (cstr x) = Some v -> rank (cstr x) < k.
Lemma below_cons k c s : below k (c :: s) -> below k s.
Proof. intros B a u x i b d v -> U V. eapply (B (c :: a)); [reflexivity|exact U|exact V]. Qed.
Lemma below_value n v k : val n = Some v -> rank n <= k -> below k (v ++ s2b " ").
Proof.
  intros V R a u x i b d v' E U V'. pose proof (val_ok _ _ V) as [Nv _]. assert (rank (cstr x) < rank n); [|lia]. apply (falls n v); [exact V|].
  apply until_char_inv in U as (Eu & _ & H); [|reflexivity]. subst u.
  assert (exists d', d = d' ++ s2b " ") as (d' & ->).
  { destruct d as [|y d] using rev_ind.
    - exfalso. assert (E' : v ++ [" "%char] = (a ++ "%"%char :: x) ++ [";"%char]) by (rewrite <- app_assoc; exact E). apply app_inj_tail in E' as [_ Q]. discriminate.
    - exists d. f_equal. assert (E' : v ++ [" "%char] = (a ++ "%"%char :: x ++ ";"%char :: d) ++ [y]).
      { change (s2b " ") with [" "%char] in E. rewrite E. rewrite <- !app_assoc. cbn [app]. rewrite <- !app_assoc. reflexivity. }
      apply app_inj_tail in E' as [_ <-]. reflexivity. }
  assert (Ev : v = a ++ "%"%char :: x ++ ";"%char :: d').
  { apply (app_inv_tail (s2b " ")). rewrite E. rewrite <- !app_assoc. cbn [app]. rewrite <- !app_assoc. reflexivity. }
  assert (Nx : nul_free x). { intros I. apply Nv. rewrite Ev. apply in_or_app. right. right. apply in_or_app. left. exact I. }
  rewrite cstr_id by exact Nx. split; [exact H|]. exists a, d'. exact Ev.
Qed.
Lemma weight_stable : forall k s, below k s -> weight (S k) s = weight k s.
Proof.
  induction k as [|k IHk]; intros s B; (induction s as [|c s IH]; [reflexivity|]); rewrite !weight_cons, (IH (below_cons _ _ _ B)); f_equal; f_equal.
  - destruct (Ascii.eqb_spec "%" c) as [<-|]; [|reflexivity]. cbn [cost]. destruct (ref_at s) as [v|] eqn:R; [|reflexivity]. exfalso. unfold ref_at in R.
    destruct (until [s2b ";"] s) as [[[[x i] b] d]|] eqn:U; [|discriminate]. pose proof (B [] s x i b d v eq_refl U R). lia.
  - destruct (Ascii.eqb_spec "%" c) as [<-|]; [|reflexivity]. unfold cost. destruct (ref_at s) as [v|] eqn:R; [|reflexivity]. unfold ref_at in R.
    destruct (until [s2b ";"] s) as [[[[x i] b] d]|] eqn:U; [|discriminate]. pose proof (B [] s x i b d v eq_refl U R). apply IHk. eapply below_value; [exact R|lia].
Qed.
Lemma below_all s : below K s.
Proof. intros a u x i b d v _ _ V. eapply bounded, V. Qed.
(** a reference is heavier than its value *)
Lemma weight_expand r x i a b v : until [s2b ";"] r = Some (x, i, a, b) -> val (cstr x) = Some v -> weight K (v ++ s2b " " ++ b) < weight K ("%"%char :: r).
Proof.
  intros U V. rewrite weight_app by (eapply val_ok, V). rewrite <- (weight_stable K ("%"%char :: r)) by apply below_all. rewrite weight_cons, Ascii.eqb_refl.
  unfold cost, ref_at. rewrite U, V. rewrite (weight_stable K r) by apply below_all. apply tail_until in U as [_ U]; [|gc]. apply (weight_tail K) in U. lia.
Qed.
End Weight.

(** ** what is left to read: the end of the text, after values without declarations *)
Definition lt_count (s : bytes) : nat := count_occ ascii_dec s "<"%char.
Definition left (c s : bytes) : Prop := exists p t, s = p ++ t /\ tail_of t c /\ XmlSpec.has "<" p = false.
Lemma lt_app a b : lt_count (a ++ b) = lt_count a + lt_count b.
Proof. apply count_occ_app. Qed.
Lemma lt_tail a b : tail_of a b -> lt_count a <= lt_count b.
Proof. intros [x ->]. rewrite lt_app. lia. Qed.
Lemma lt_none p : XmlSpec.has "<" p = false -> lt_count p = 0.
Proof.
  induction p as [|c p IH]; intros H; [reflexivity|]. cbn [XmlSpec.has existsb] in H. apply orb_false_iff in H as [H1 H2]. unfold lt_count in *. cbn [count_occ].
  destruct (ascii_dec c "<") as [->|]; [discriminate|]. apply IH, H2.
Qed.
Lemma lt_eats a s : eats a ("<"%char :: s) -> lt_count a < lt_count ("<"%char :: s).
Proof.
  intros [[x E] L]. destruct x as [|c x]; [cbn [app] in E; subst a; lia|]. injection E as _ ->. unfold lt_count. cbn [count_occ]. destruct (ascii_dec "<" "<"); [|congruence].
  fold (lt_count (x ++ a)) (lt_count a). rewrite lt_app. lia.
Qed.
Lemma left_all c : left c c.
Proof. exists [], c. split; [reflexivity|]. split; [apply tail_refl|reflexivity]. Qed.
Lemma left_tail c a s : left c s -> tail_of a s -> left c a.
Proof.
  intros (p & t & -> & T & H) [x E]. revert x E. induction p as [|y p IH]; intros x E.
  - cbn [app] in E. exists [], a. split; [reflexivity|]. split; [|reflexivity]. eapply tail_trans; [|exact T]. exists x. exact E.
  - destruct x as [|z x].
    + cbn [app] in E. subst a. exists (y :: p), t. auto.
    + cbn [app] in E. injection E as _ E. apply (IH ltac:(cbn in H; apply orb_false_iff in H as [_ H]; exact H) x E).
Qed.
Lemma left_value c v s : left c s -> XmlSpec.has "<" v = false -> left c (v ++ s2b " " ++ s) /\ lt_count (v ++ s2b " " ++ s) = lt_count s.
Proof.
  intros (p & t & -> & T & H) Hv. split.
  - exists (v ++ s2b " " ++ p), t. split; [rewrite <- !app_assoc; reflexivity|]. split; [exact T|]. rewrite !GramProofs.has_app, Hv, H. reflexivity.
  - rewrite lt_app, (lt_none v Hv). reflexivity.
Qed.
Lemma left_head c s : left c ("<"%char :: s) -> tail_of ("<"%char :: s) c.
Proof. intros (p & t & E & T & H). destruct p as [|y p]; [cbn in E; subst; exact T|]. injection E as <- _. discriminate. Qed.

(** ** the declarations of attributes *)
Section Entities.
Variable c : bytes.
Hypothesis clean : nul_free c.
Variable rank : bytes -> nat.
Hypothesis falls : forall n v m, declares_parameter c n v -> refers v m -> rank m < rank n.
Hypothesis inside : no_declaration_inside c.
(** the entities were declared in the text *)
Definition known (ents : list entity) : Prop := forall n v, In (Entity n EParameter (Some v)) ents -> declares_parameter c n v.
Lemma declared_clean n v : declares_parameter c n v -> nul_free v /\ ~ In " "%char n.
Proof.
  intros (a & w & w0 & w1 & q & b & E & _ & _ & Wn & _). split.
  - intros I. apply clean. rewrite E. do 8 (apply in_or_app; right). apply in_or_app. left. exact I.
  - intros I. rewrite forallb_forall in Wn. apply Wn in I. discriminate.
Qed.
Lemma max_rank ents : exists K, forall n v, In (Entity n EParameter (Some v)) ents -> rank n < K.
Proof.
  exists (S (list_max (map (fun e => rank (en_name e)) ents))). intros n v I. apply le_n_S.
  assert (L : Forall (fun k => k <= list_max (map (fun e => rank (en_name e)) ents)) (map (fun e => rank (en_name e)) ents)) by (apply list_max_le; apply le_n).
  rewrite Forall_forall in L. apply L. apply in_map_iff. exists (Entity n EParameter (Some v)). auto.
Qed.
Definition less (s' s : bytes) : Prop := left c s' /\ lt_count s' <= lt_count s.
Lemma less_tail a s : left c s -> tail_of a s -> less a s.
Proof. intros H T. split; [eapply left_tail; eassumption|apply lt_tail, T]. Qed.
Lemma less_trans a b s : less a b -> less b s -> less a s.
Proof. intros [A1 A2] [B1 B2]. split; [exact A1|lia]. Qed.
Lemma atts_end ents K : known ents -> (forall n v, In (Entity n EParameter (Some v)) ents -> rank n < K) ->
  forall n s f decls id idref, left c s -> weight (fun x => entity_value ents x EParameter) K s <= n -> n < f ->
  exists o, t_atts f ents s decls id idref = Ok o /\ forall s' x, o = Some (s', x) -> less s' s.
Proof.
  intros Kn B. set (val := fun x => entity_value ents x EParameter).
  assert (Vok : forall n v, val n = Some v -> nul_free v /\ ~ In " "%char n) by (intros n v V; apply declared_clean, Kn, lookup_in, V).
  assert (Vf : forall n v m, val n = Some v -> refers v m -> rank m < rank n) by (intros n v m V; apply falls, Kn, lookup_in, V).
  assert (Vb : forall n v, val n = Some v -> rank n < K) by (intros n v V; eapply B, lookup_in, V).
  induction n as [n IH] using lt_wf_ind. intros s [|f] decls id idref T L Lf; [lia|]. cbn [t_atts].
  destruct (after (s2b ">") (skip s)) as [s1|] eqn:E.
  { eexists. split; [reflexivity|]. intros ? ? X. inversion X; subst. apply tail_after in E. apply less_tail; [exact T|tl]. }
  destruct (until [s2b " "] (skip s)) as [[[[x i] a] b]|] eqn:U; [|eexists; split; [reflexivity|discriminate]].
  apply tail_until in U as [T1 _]; [|gc]. assert (Ta : tail_of (skip a) s) by tl.
  assert (X : match t_expand (skip a) ents with None => True | Some s1 => less s1 s /\ weight val K s1 <= weight val K s end).
  { unfold t_expand. destruct (after (s2b "%") (skip a)) as [r|] eqn:A.
    2:{ split; [apply less_tail; assumption|apply weight_tail, Ta]. }
    destruct (until [s2b ";"] r) as [[[[y j] a'] b']|] eqn:U; [|exact Logic.I]. fold (val (cstr y)). destruct (val (cstr y)) as [v|] eqn:V.
    2:{ split; [apply less_tail; assumption|apply weight_tail, Ta]. }
    apply LoadProofs3.after_split in A. change (s2b "%" ++ r) with ("%"%char :: r) in A.
    pose proof U as Tb. apply tail_until in Tb as [_ Tb]; [|gc]. assert (Tb' : tail_of b' s). { eapply tail_trans; [|exact Ta]. rewrite A. destruct Tb as [z ->]. exists ("%"%char :: z). reflexivity. }
    destruct (left_value c v b' (left_tail _ _ _ T Tb')) as [Lv Cv]; [eapply inside, Kn, lookup_in, V|].
    split; [split; [exact Lv|rewrite Cv; apply lt_tail, Tb']|]. pose proof (weight_expand val Vok rank Vf K Vb r y j a' b' v U V) as W.
    apply (weight_tail val K) in Ta. rewrite A in Ta. lia. }
  destruct (t_expand (skip a) ents) as [s1|]; [|eexists; split; [reflexivity|discriminate]]. destruct X as [Ls Ws].
  destruct (att_type_eats s1) as ([[s2 ty]|] & E2 & T2); rewrite E2; cbn [bindo]; [|eexists; split; [reflexivity|discriminate]].
  specialize (T2 _ _ eq_refl). destruct (t_default (skip s2)) as [[s3 df]|] eqn:E3; [|eexists; split; [reflexivity|discriminate]].
  apply tail_default in E3. destruct (bad_id _ _ _ _); [eexists; split; [reflexivity|discriminate]|].
  destruct (t_value (skip s3)) as [s4 v] eqn:E4. apply tail_value in E4. destruct (bad_enum _ _); [eexists; split; [reflexivity|discriminate]|].
  assert (T4 : eats s4 s1) by (eapply eats_tail; [|exact T2]; tl). assert (L4 : less s4 s1) by (apply less_tail; [apply Ls|apply T4]).
  apply (weight_eats val K) in T4.
  destruct (IH (n - 1) ltac:(lia) s4 f (decls ++ [AtDecl (cstr x) ty df v]) (flag_id id ty) (idref || is_idrefs ty)%bool) as (o & E5 & T6); [apply L4|lia|lia|].
  exists o. split; [exact E5|]. intros ? ? X. apply T6 in X. eapply less_trans; [exact X|]. eapply less_trans; eassumption.
Qed.
Lemma attlist_end s l : known (l_entities l) -> left c s ->
  exists N o, (forall f, N <= f -> t_attlist f s l = Ok o) /\ forall s' l', o = Some (s', l') -> less s' s /\ l_entities l' = l_entities l.
Proof.
  intros Kn T. unfold t_attlist. destruct (until [s2b " "] (skip s)) as [[[[x i] a] b]|] eqn:U; [|exists 0, None; split; [reflexivity|discriminate]].
  apply tail_until in U as [U _]; [|gc]. assert (Ta : tail_of a s) by tl. destruct (max_rank (l_entities l)) as (K & B).
  set (N := S (weight (fun x => entity_value (l_entities l) x EParameter) K a)).
  destruct (atts_end (l_entities l) K Kn B (N - 1) a N (decls_of (l_attrs l) (cstr x)) (l_id l) (l_idref l)) as (o & E & To); [eapply left_tail; eassumption|lia|lia|].
  exists N. destruct o as [[s' [[ds id] idref]]|].
  - eexists. split.
    + intros f L. rewrite (atts_mono _ _ f _ _ _ _ _ E L). cbn [bindo]. reflexivity.
    + intros ? ? X. inversion X; subst. split; [|reflexivity]. eapply less_trans; [eapply To; reflexivity|apply less_tail; assumption].
  - exists None. split; [|discriminate]. intros f L. rewrite (atts_mono _ _ f _ _ _ _ _ E L). reflexivity.
Qed.
(** ** the declarations of entities *)
Lemma until_space s x i a b : until [s2b " "] s = Some (x, i, a, b) -> forallb (fun c => negb (white c)) x = true.
Proof.
  revert x i a b. induction s as [|y s IH]; intros x i a b H; [discriminate|]. cbn [until] in H. unfold stop_at in H. change (existsb ws_chunk [s2b " "]) with true in H. cbn [andb] in H.
  destruct (is_ws y) eqn:W; [injection H as <- _ _ _; reflexivity|]. change (hit [s2b " "] (y :: s) 0) with (@None (Z * nat)) in H.
  destruct (until [s2b " "] s) as [[[[x' i'] a'] b']|]; [|discriminate]. injection H as <- _ _ _. cbn [forallb]. rewrite <- is_ws_white, W. cbn [negb andb]. eapply IH. reflexivity.
Qed.
Lemma skip_blanks s : exists w, s = w ++ skip s /\ blank w.
Proof.
  destruct (StreamProofs.skip_split s) as (w & E & W). exists w. split; [exact E|]. unfold blank. rewrite <- W. clear. induction w as [|c w IH]; [reflexivity|]. cbn [forallb]. rewrite IH, is_ws_white. reflexivity.
Qed.
Lemma sub_clean a b : a ++ b = c -> nul_free a /\ nul_free b.
Proof. intros E. split; intros I; apply clean; rewrite <- E; apply in_or_app; [left|right]; exact I. Qed.
Lemma entity_end s l s' l' : left c ("<"%char :: s) -> known (l_entities l) -> t_entity ("<"%char :: s) l = Some (s', l') -> known (l_entities l').
Proof.
  intros T Kn H. apply left_head in T. unfold t_entity in H. change (skip ("<"%char :: s)) with ("<"%char :: s) in H.
  destruct (after (s2b "<!ENTITY") ("<"%char :: s)) as [s1|] eqn:A; [|discriminate]. apply LoadProofs3.after_split in A. rewrite A in T. destruct T as [p Ec].
  destruct (skip_blanks s1) as (w & E1 & W).
  assert (exists s2 ty w0, match after (s2b "%") (skip s1) with Some s => (skip s, EParameter) | None => (skip s1, EGeneral) end = (s2, ty) /\
            (ty = EParameter -> skip s1 = str "%" ++ w0 ++ s2 /\ blank w0)) as (s2 & ty & w0 & E2 & P).
  { destruct (after (s2b "%") (skip s1)) as [r|] eqn:Ap.
    - destruct (skip_blanks r) as (w0 & E0 & W0). do 2 eexists. exists w0. split; [reflexivity|]. intros _. apply LoadProofs3.after_split in Ap. rewrite Ap, <- E0. auto.
    - do 2 eexists. exists []. split; [reflexivity|discriminate]. }
  rewrite E2 in H. destruct (until [s2b " "] s2) as [[[[x i] a] b]|] eqn:U; [|discriminate]. pose proof (until_space _ _ _ _ _ U) as Wx.
  pose proof U as Es2. apply StreamProofs.until_split in Es2 as (_ & Es2 & _); [|gc].
  destruct (skip_blanks a) as (w1 & Ea & W1). destruct (t_which (skip a) ent_starts None) as [s3 o] eqn:E3. destruct o as [q|]; [|discriminate].
  destruct (match q with None => (s3, None) | Some q => match until [q] s3 with Some (y, _, _, s) => (s, Some (cstr y)) | None => (s3, None) end end) as [s4 v] eqn:E4.
  destruct (after (s2b ">") (skip s4)) as [s5|]; [|discriminate]. injection H as _ <-. cbn [l_entities].
  intros n u I. apply in_app_or in I as [I|[I|[]]]; [apply Kn, I|]. injection I as En Ety Ev. subst ty v.
  destruct (P eq_refl) as [Es1 W0]. destruct q as [q|]; [|discriminate].
  destruct (until [q] s3) as [[[[y j] a'] b']|] eqn:U2; [|discriminate]. injection E4 as _ Eu.
  assert (Q : exists qc, q = [qc] /\ quote qc /\ skip a = qc :: s3).
  { unfold ent_starts in E3. cbn [t_which] in E3. destruct (after (s2b "PUBLIC") _); [discriminate|]. destruct (after (s2b "SYSTEM") _); [discriminate|].
    destruct (after dquote (skip a)) eqn:Ad; [injection E3 as <- <-; apply LoadProofs3.after_split in Ad; exists "034"%char; split; [reflexivity|]; split; [right; reflexivity|exact Ad]|].
    destruct (after (s2b "'") (skip a)) eqn:Aq; [injection E3 as <- <-; apply LoadProofs3.after_split in Aq; exists "'"%char; split; [reflexivity|]; split; [left; reflexivity|exact Aq]|discriminate]. }
  destruct Q as (qc & -> & Q & Esk). apply until_char_inv in U2 as (E5 & _ & Hq); [|destruct Q as [->| ->]; reflexivity].
  assert (Ec' : c = p ++ s2b "<!ENTITY" ++ w ++ str "%" ++ w0 ++ x ++ w1 ++ [qc] ++ y ++ [qc] ++ b').
  { rewrite Ec, E1, Es1, Es2, Ea, Esk, E5. reflexivity. }
  assert (Nx : nul_free x). { intros I. apply clean. rewrite Ec'. do 5 (apply in_or_app; right). apply in_or_app. left. exact I. }
  assert (Ny : nul_free y). { intros I. apply clean. rewrite Ec'. do 8 (apply in_or_app; right). apply in_or_app. left. exact I. }
  rewrite cstr_id in En, Eu by assumption. subst n u. exists p, w, w0, w1, qc, b'. repeat (split; [assumption|]). exact Hq.
Qed.
(** ** all the declarations *)
Lemma head_lt z s r : after (s2b (String "<" z)) s = Some r -> exists s', s = "<"%char :: s'.
Proof. intros A. apply LoadProofs3.after_split in A. rewrite A. eexists. reflexivity. Qed.
Lemma dtd_ends : forall n s l it, left c s -> known (l_entities l) -> (0 <= it <= 3)%Z -> lt_count s + Z.to_nat (3 - it) < n ->
  exists N o, forall f, N <= f -> t_dtd f s l it = Ok o.
Proof.
  induction n as [n IH] using lt_wf_ind. intros s l it T Kn Hit L. destruct s as [|x s].
  { exists 1. eexists. intros [|f] Lf; [lia|]. reflexivity. }
  set (s0 := x :: s) in *. assert (N0 : s0 <> []) by discriminate. clearbody s0.
  destruct (a_comments s0 pdoc_new) as [[s1 d1]|] eqn:C.
  2:{ exists 1, None. intros [|f] Lf; [lia|]. rewrite LoadProofs8.dtd_t_S, C by exact N0. reflexivity. }
  pose proof (comments_tail (length s0) s0 s1 d1 (le_n _) pdoc_new eq_refl C) as Tc. assert (T1 : left c s1) by (eapply left_tail; eassumption). apply lt_tail in Tc as L1.
  destruct (after (s2b "<!ELEMENT") s1) as [r|] eqn:A1.
  { destruct (element_eats s1 l) as (o & E & T2). destruct o as [[s2 l2]|].
    2:{ exists 1, None. intros [|f] Lf; [lia|]. rewrite LoadProofs8.dtd_t_S, C, A1, E by exact N0. reflexivity. }
    specialize (T2 _ _ eq_refl). destruct (head_lt _ _ _ A1) as (s1' & ->). pose proof (lt_eats _ _ T2) as L2.
    assert (El : l_entities l2 = l_entities l).
    { unfold t_element in E. destruct (after _ (skip _)) in E; [|discriminate]. destruct (until _ (skip _)) as [[[[? ?] ?] ?]|] in E; [|discriminate]. destruct (_ || _)%bool in E; [discriminate|].
      apply bindo_ok in E as ([? [? ?]] & _ & E). destruct (existsb _ _) in E; [discriminate|]. destruct (_ =? _)%Z in E; [discriminate|]. injection E as _ <-. reflexivity. }
    destruct (IH (n - 1) ltac:(lia) s2 l2 it) as (N & o & E3); [eapply left_tail; [exact T1|apply T2]|rewrite El; exact Kn|lia|lia|].
    exists (S N), o. intros [|f] Lf; [lia|]. rewrite LoadProofs8.dtd_t_S, C, A1, E by exact N0. cbn [bindo]. apply E3. lia. }
  destruct (after (s2b "<!ATTLIST") s1) as [s2|] eqn:A2.
  { destruct (head_lt _ _ _ A2) as (s1' & ->). pose proof A2 as A2'. apply tail_after in A2'. assert (T2 : left c s2) by (eapply left_tail; eassumption).
    assert (L2 : lt_count s2 < lt_count ("<"%char :: s1')). { apply lt_eats. eapply eats_after; [exact A2|discriminate|apply tail_refl]. }
    destruct (attlist_end s2 l Kn T2) as (N1 & o1 & E1 & P). destruct o1 as [[s3 l3]|].
    2:{ exists (S N1), None. intros [|f] Lf; [lia|]. rewrite LoadProofs8.dtd_t_S, C, A1, A2, E1 by (exact N0 || lia). reflexivity. }
    destruct (P _ _ eq_refl) as [[L3 L3'] El]. destruct (IH (n - 1) ltac:(lia) s3 l3 it) as (N & o & E3); [exact L3|rewrite El; exact Kn|lia|lia|].
    exists (S (N + N1)), o. intros [|f] Lf; [lia|]. rewrite LoadProofs8.dtd_t_S, C, A1, A2, E1 by (exact N0 || lia). cbn [bindo]. apply E3. lia. }
  destruct (after (s2b "<!ENTITY") s1) as [r|] eqn:A3.
  { destruct (t_entity s1 l) as [[s2 l2]|] eqn:E.
    2:{ exists 1, None. intros [|f] Lf; [lia|]. rewrite LoadProofs8.dtd_t_S, C, A1, A2, A3, E by exact N0. reflexivity. }
    pose proof (entity_eats _ _ _ _ E) as T2. destruct (head_lt _ _ _ A3) as (s1' & ->). pose proof (lt_eats _ _ T2) as L2.
    destruct (IH (n - 1) ltac:(lia) s2 l2 it) as (N & o & E3); [eapply left_tail; [exact T1|apply T2]|eapply entity_end; eassumption|lia|lia|].
    exists (S N), o. intros [|f] Lf; [lia|]. rewrite LoadProofs8.dtd_t_S, C, A1, A2, A3, E by exact N0. cbn [bindo]. apply E3. lia. }
  destruct (Z.eqb_spec it 3) as [->|Ni].
  { exists 1, None. intros [|f] Lf; [lia|]. rewrite LoadProofs8.dtd_t_S, C, A1, A2, A3 by exact N0. reflexivity. }
  destruct (IH (n - 1) ltac:(lia) s1 l (it + 1)%Z) as (N & o & E3); [exact T1|exact Kn|lia|lia|].
  exists (S N), o. intros [|f] Lf; [lia|]. rewrite LoadProofs8.dtd_t_S, C, A1, A2, A3 by exact N0. destruct (Z.eqb_spec it 3); [congruence|]. apply E3. lia.
Qed.
End Entities.
Lemma references_end content : nul_free content -> no_cycle content -> no_declaration_inside content ->
  exists o : option load,
    (exists n, forall fuel, n <= fuel ->
       match o with
       | None => dtd_loop fuel (stream_mem content) load_new 0 = Ok None
       | Some l => exists st, dtd_loop fuel (stream_mem content) load_new 0 = Ok (Some (st, l))
       end) /\
    ((forall l, o = Some l -> acyclic (l_elements l)) -> exists n r, forall fuel, n <= fuel -> dtd_parse fuel content = Ok r).
Proof.
  intros C (rank & Fa) In.
  destruct (dtd_ends content C rank Fa In (lt_count content + 4) content load_new 0) as (n & o & E2); [apply left_all|intros ? ? []|lia|lia|].
  exists (match o with Some (_, l) => Some l | None => None end). split.
  - exists n. intros fuel L. pose proof (LoadProofs3.dtd_ok fuel (stream_mem content) content load_new 0 (rest_new content)) as H. rewrite (E2 fuel L) in H. unfold simr in H.
    destruct o as [[s l]|]; [destruct H as (st & H & _); exists st; exact H|exact H].
  - intros A. destruct o as [[s l]|].
    2:{ exists n, None. intros fuel L. rewrite parse_text, (E2 fuel L). reflexivity. }
    specialize (A l eq_refl). destruct (l_elements l) as [|e es] eqn:El.
    + eexists n, _. intros fuel L. rewrite parse_text, (E2 fuel L). unfold finish. rewrite El. cbn [bind].
      instantiate (1 := if (negb (l_id l) && l_idref l)%bool then None else Some (Dtd [] (l_attrs l) None (l_id l) (l_idref l), l_entities l)). destruct (_ && _)%bool; reflexivity.
    + destruct (DtdDocProofs4.new_root_ends (e :: es)) as (m & R); [discriminate|exact A|].
      destruct (R m m (le_n m) (le_n m)) as (r & Er & _).
      assert (Rm : forall fuel, m <= fuel -> new_root fuel fuel (e :: es) = Ok r).
      { intros fuel L. unfold new_root in *. exact (root_mono _ _ _ _ _ _ _ Er L L). }
      eexists (n + m), _. intros fuel L. rewrite parse_text, (E2 fuel) by lia. unfold finish. rewrite El, (Rm fuel) by lia. cbn [bind].
      instantiate (1 := if (negb (l_id l) && l_idref l)%bool then None else Some (Dtd (e :: es) (l_attrs l) (Some r) (l_id l) (l_idref l), l_entities l)). destruct (_ && _)%bool; reflexivity.
Qed.
