(** Declarations of elements. *)
From Verif Require Import Prelude StrModel StrSpec StrProofs StrProofs2 StrProofs3 TreeModel StreamModel StreamProofs ParseModel ParseProofs
  XmlSpec GramProofs GramProofs2 DtdModel DtdSpec DtdDocModel LoadModel LoadSpec LoadProofs LoadProofs2 LoadProofs5.
Open Scope Z_scope.
Local Arguments Z.of_nat : simpl never.
Local Arguments Z.to_nat : simpl never.
Local Arguments Z.add : simpl never.
Local Arguments Z.sub : simpl never.
Local Arguments Z.eqb : simpl never.
Local Arguments Z.ltb : simpl never.
Local Arguments Z.leb : simpl never.

(** ** the language of what is loaded *)
Lemma star_iff L M : (forall w, L w <-> M w) -> forall w, star L w -> star M w.
Proof. intros H w S. induction S; constructor; [apply H|]; assumption. Qed.
Lemma reps_iff t L M : (forall w, L w <-> M w) -> forall w, reps t L w <-> reps t M w.
Proof.
  intros H w. destruct t; cbn [reps].
  - reflexivity.
  - apply H.
  - rewrite H. reflexivity.
  - split; apply star_iff; [|intros v; symmetry]; apply H.
  - split; intros (u & v & E & A & B); exists u, v; (split; [exact E|]); (split; [apply H; exact A|]); revert B; apply star_iff; [|intros z; symmetry]; apply H.
Qed.
Lemma in_order_iff Ls Ms : Forall2 (fun L M : words => forall w, L w <-> M w) Ls Ms -> forall w, in_order Ls w <-> in_order Ms w.
Proof.
  intros F. induction F as [|L M Ls Ms H F IH]; intros w; [reflexivity|]. cbn [in_order].
  split; intros (u & v & E & A & B); exists u, v; (split; [exact E|]); (split; [apply H; exact A|apply IH; exact B]).
Qed.
Lemma one_of_half Ls Ms : Forall2 (fun L M : words => forall w, L w <-> M w) Ls Ms -> forall w, one_of Ls w -> one_of Ms w.
Proof.
  intros F w (L & I & A). induction F as [|L' M Ls Ms H F IH]; [destruct I|]. destruct I as [->|I].
  - exists M. split; [left; reflexivity|apply H; exact A].
  - destruct (IH I) as (N & IN & AN). exists N. split; [right; exact IN|exact AN].
Qed.
Lemma one_of_iff Ls Ms : Forall2 (fun L M : words => forall w, L w <-> M w) Ls Ms -> forall w, one_of Ls w <-> one_of Ms w.
Proof.
  intros F w. split; [apply one_of_half; exact F|]. apply one_of_half. clear w. induction F as [|L M Ls Ms H F IH]; constructor; [|exact IH].
  intros w. symmetry. apply H.
Qed.
Lemma one_item t L w : reps t (in_order [L]) w <-> reps t (one_of [L]) w.
Proof.
  apply reps_iff. clear w. intros w. split.
  - intros (u & v & -> & A & B). cbn [in_order] in B. subst v. rewrite app_nil_r. exists L. split; [left; reflexivity|exact A].
  - intros (M & [<-|[]] & A). exists w, []. rewrite app_nil_r. repeat split; assumption.
Qed.
Lemma lang_ld : forall p, grouped p = true -> forall w, lang (ld p) w <-> lang p w.
Proof.
  fix IH 1. intros [x t|ty t ps] G w; [reflexivity|]. cbn [grouped] in G. apply andb_true_iff in G as [G1 G2].
  assert (F : Forall2 (fun L M : words => forall w, L w <-> M w) (map lang (map ld ps)) (map lang ps)).
  { clear G1. induction ps as [|p ps IHps]; [constructor|]. cbn [forallb] in G2. apply andb_true_iff in G2 as [Gp G2].
    cbn [map]. constructor; [apply IH; exact Gp|exact (IHps G2)]. }
  cbn [ld]. destruct (shown ps) eqn:Sh.
  - destruct ty; cbn [lang]; apply reps_iff; try (apply one_of_iff; exact F). apply in_order_iff; exact F.
  - cbn [orb] in G1. apply Nat.eqb_eq in G1. destruct ps as [|p [|q ps]]; [discriminate| |discriminate].
    cbn [lang]. inversion F; subst. clear F. cbn [map lang] in *.
    rewrite (reps_iff t _ (one_of [lang p])) by (intros v; apply one_of_iff; constructor; [assumption|constructor]).
    destruct ty; try reflexivity. symmetry. apply one_item.
Qed.
Lemma langs_ld ps : forallb grouped ps = true -> Forall2 (fun L M : words => forall w, L w <-> M w) (map lang (map ld ps)) (map lang ps).
Proof.
  induction ps as [|p ps IH]; intros G; [constructor|]. cbn [forallb] in G. apply andb_true_iff in G as [Gp G]. constructor; [apply lang_ld; exact Gp|exact (IH G)].
Qed.
Definition ld_top (p : part) : part :=
  match p with Leaf x t => Leaf x t | Group ty t ps => Group (if shown ps then ty else Sequence) t (map ld ps) end.
Lemma lang_ld_top p : grouped_top p = true -> forall w, lang (ld_top p) w <-> lang p w.
Proof.
  destruct p as [x t|ty t ps]; intros G w; [reflexivity|]. cbn [grouped_top] in G. apply andb_true_iff in G as [G1 G2]. pose proof (langs_ld ps G2) as F.
  cbn [ld_top]. destruct (shown ps).
  - destruct ty; cbn [lang]; apply reps_iff; try (apply one_of_iff; exact F). apply in_order_iff; exact F.
  - destruct ty; try discriminate. cbn [lang]. apply reps_iff, in_order_iff, F.
Qed.

Lemma all_shown_kept : forall p, all_shown p = true -> ld p = p.
Proof.
  fix IH 1. intros [x t|ty t ps] H; [reflexivity|]. cbn [all_shown] in H. apply andb_true_iff in H as [H1 H2]. cbn [ld]. rewrite H1. f_equal. clear H1.
  induction ps as [|p ps IHps]; [reflexivity|]. cbn [forallb] in H2. apply andb_true_iff in H2 as [Hp H2]. cbn [map]. rewrite (IH p Hp), (IHps H2). reflexivity.
Qed.
Lemma exact_kept p : exact p = true -> ld_top p = p.
Proof.
  destruct p as [x t|ty t ps]; intros H; [reflexivity|]. cbn [exact] in H. apply andb_true_iff in H as [H1 H2]. cbn [ld_top].
  replace (map ld ps) with ps.
  - destruct (shown ps); [reflexivity|]. destruct ty; try discriminate. reflexivity.
  - clear H1. induction ps as [|p ps IH]; [reflexivity|]. cbn [forallb] in H2. apply andb_true_iff in H2 as [Hp H2]. cbn [map]. rewrite (all_shown_kept p Hp), <- (IH H2). reflexivity.
Qed.

(** ** content specifications *)
Definition content_part (c : content) : option part :=
  match c with
  | CEmpty | CAny => None
  | CText => None
  | CMixed xs => Some (Group Choice TMany (Leaf pcdata TOne :: map (fun x => Leaf x TOne) xs))
  | CKids p => Some (ld_top p)
  end.
Definition content_read (c : content) (ty : el_type) (p : option part) : Prop :=
  match c with
  | CEmpty => ty = TEmpty /\ p = None
  | CAny => ty = TAny /\ p = None
  | CText => ty = TPcdata /\ exists t, p = Some (Group Sequence t [Leaf pcdata TOne])
  | _ => ty = TChildren /\ p = content_part c
  end.
Lemma read_spec_text n s q : (forall f, t_spec (n + f) s TChildren open_new [] = Ok q) -> t_read_spec ("("%char :: s) = Ok q.
Proof.
  intros E. unfold t_read_spec. change (skip ("("%char :: s)) with ("("%char :: s). change (insp ("("%char :: s) (s2b "(") =? 0) with false. cbv iota zeta.
  change (rest_of ("("%char :: s) (s2b "(")) with s.
  rewrite (spec_fuel (length s) s (S (length s)) (n + S (length s)) TChildren open_new []) by lia. apply E.
Qed.
Lemma pcdata_word : forallb word_char pcdata = true. Proof. reflexivity. Qed.
Lemma map_ld_leaves xs : map ld (map (fun x => Leaf x TOne) xs) = map (fun x => Leaf x TOne) xs.
Proof. rewrite map_map. reflexivity. Qed.
Lemma content_ok b c w : content_text b c -> blank w ->
  exists ty p, content_read c ty p /\ forall k, exists s, t_content (b ++ w ++ ">"%char :: k) = Ok (Some (s, (ty, p))) /\ skip s = ">"%char :: k.
Proof.
  intros C B. destruct C as [| |u u' r Bu Bu' R|u u' z xs Bu Bu' I|b ty t ps C].
  - exists TEmpty, None. split; [split; reflexivity|]. intros k. exists (w ++ ">"%char :: k). split; [reflexivity|apply skip_app_here; [exact B|reflexivity]].
  - exists TAny, None. split; [split; reflexivity|]. intros k. exists (w ++ ">"%char :: k). split; [reflexivity|apply skip_app_here; [exact B|reflexivity]].
  - assert (exists t, rep_text r t) as (t & Rt) by (destruct R as [->| ->]; eexists; constructor).
    exists TPcdata, (Some (top_of (Open Undef t [Leaf pcdata TOne]))). split; [split; [reflexivity|exists t; reflexivity]|]. intros k. exists (">"%char :: k). split; [|reflexivity].
    rewrite <- !app_assoc. unfold t_content.
    change (str "(" ++ ?s)%list with ("("%char :: s).
    rewrite (read_spec_text 1 (u ++ str "#PCDATA" ++ u' ++ str ")" ++ r ++ w ++ ">"%char :: k)
               (Some (">"%char :: k, (TPcdata, top_of (Open Undef t [Leaf pcdata TOne]))))); [reflexivity|].
    intros f. rewrite t_spec_blank by exact Bu. cbn [Nat.add].
    change (str "#PCDATA" ++ u' ++ str ")" ++ r ++ w ++ ">"%char :: k) with (pcdata ++ [] ++ u' ++ ")"%char :: r ++ w ++ ">"%char :: k).
    rewrite (leaf_step pcdata [] TOne u' ")" 3 (r ++ w ++ ">"%char :: k) TChildren open_new [] Undef f); try assumption; try reflexivity; try constructor.
    cbv zeta. change (3 =? 3) with true. cbv iota. rewrite (close_end f r t) by assumption. reflexivity.
    discriminate.
  - exists TChildren, (content_part (CMixed xs)). split; [split; reflexivity|]. intros k. exists (">"%char :: k). split; [|reflexivity].
    rewrite <- !app_assoc.
    pose proof (proj2 spec_read "|"%char z _ I (ex_intro _ 2 (or_intror (conj eq_refl eq_refl))) (str "*" ++ w ++ ">"%char :: k) TChildren
      (Open Choice TUnknown [Leaf pcdata TOne]) [] (or_intror eq_refl)) as (n & E).
    unfold t_content. change (str "(" ++ ?s)%list with ("("%char :: s).
    rewrite (read_spec_text (S n) (u ++ str "#PCDATA" ++ u' ++ str "|" ++ z ++ str ")*" ++ w ++ ">"%char :: k)
               (Some (">"%char :: k, (TChildren, Group Choice TMany (Leaf pcdata TOne :: map (fun x => Leaf x TOne) xs))))); [reflexivity|].
    intros f. rewrite t_spec_blank by exact Bu. cbn [Nat.add].
    change (str "#PCDATA" ++ u' ++ str "|" ++ z ++ str ")*" ++ w ++ ">"%char :: k) with (pcdata ++ [] ++ u' ++ "|"%char :: z ++ str ")*" ++ w ++ ">"%char :: k).
    rewrite (leaf_step pcdata [] TOne u' "|" 2 (z ++ str ")*" ++ w ++ ">"%char :: k) TChildren open_new [] Choice (n + f)); try assumption; try reflexivity; try constructor.
    cbv zeta. change (2 =? 3) with false. cbv iota. change (retype_element TChildren 2 pcdata _) with TChildren.
    change (str ")*" ++ w ++ ">"%char :: k) with (")"%char :: str "*" ++ w ++ ">"%char :: k).
    change (Open Choice (o_t open_new) (o_ps open_new ++ [Leaf pcdata TOne])) with (Open Choice TUnknown [Leaf pcdata TOne]). rewrite E.
    rewrite (close_end f (str "*") TMany) by (assumption || constructor). rewrite map_ld_leaves. cbn [o_ty o_ps]. destruct (shown _); reflexivity.
    discriminate.
  - exists TChildren, (content_part (CKids (Group ty t ps))). split; [split; reflexivity|]. intros k. exists (">"%char :: k). split; [|reflexivity].
    inversion C as [|ty' c b' ps' r t' Sp I R]; subst. clear C. rewrite <- !app_assoc.
    assert (exists v, sep c v /\ ty_of c = ty) as (v & S0 & T0).
    { destruct Sp as [[-> ->]|(-> & -> & _)]; [exists 1|exists 2]; (split; [|reflexivity]); [left|right]; auto. }
    pose proof (proj2 spec_read c b' ps I (ex_intro _ v S0) (r ++ w ++ ">"%char :: k) TChildren open_new [] (or_introl eq_refl)) as (n & E).
    unfold t_content. change (str "(" ++ ?s)%list with ("("%char :: s).
    rewrite (read_spec_text n (b' ++ str ")" ++ r ++ w ++ ">"%char :: k) (Some (">"%char :: k, (TChildren, ld_top (Group ty t ps))))); [reflexivity|].
    intros f. change (str ")" ++ r ++ w ++ ">"%char :: k) with (")"%char :: r ++ w ++ ">"%char :: k). rewrite E.
    rewrite (close_end f r t) by assumption. cbn [o_ty o_ps open_new ld_top app]. unfold top_of. cbn [o_ty o_t o_ps]. rewrite T0.
    destruct (shown ps); [|reflexivity]. destruct Sp as [[-> _]|(-> & _)]; reflexivity.
Qed.

(** ** the declaration *)
Lemma gap_until (x w s : bytes) stops i (P : ascii -> bool) : forallb P x = true -> gap1 w -> (forall c z, P c = true -> stop_at stops (c :: z) = None) ->
  (forall c z, white c = true -> stop_at stops (c :: z) = Some (i, 1%nat)) -> exists b, until stops (x ++ w ++ s) = Some (x, i, w ++ s, b).
Proof.
  intros N [B Nw] H1 H2. destruct w as [|c w]; [congruence|]. unfold blank in B. cbn [forallb] in B. apply andb_true_iff in B as [Wc B].
  exists (w ++ s). cbn [app]. erewrite until_after; [|  |apply (until_here _ _ i 1%nat); [apply H2; exact Wc|discriminate]].
  - cbn. rewrite app_nil_r. reflexivity.
  - intros a d b ->. apply H1. rewrite forallb_app in N. cbn [forallb] in N. apply andb_true_iff in N as [_ N]. apply andb_true_iff in N as [N _]. exact N.
Qed.
Lemma until_gap x w s : forallb name_char x = true -> gap1 w -> exists b, until [s2b " "] (x ++ w ++ s) = Some (x, 0, w ++ s, b).
Proof.
  intros X W. apply (gap_until x w s _ _ name_char X W).
  - intros c z H. unfold stop_at. rewrite is_ws_white, (name_white _ H). reflexivity.
  - intros c z H. unfold stop_at. rewrite is_ws_white, H. reflexivity.
Qed.
Lemma until_el x w s : is_tok x -> gap1 w -> exists b, until [s2b ">"; s2b "("; s2b " "] (x ++ w ++ s) = Some (x, 2, w ++ s, b).
Proof.
  intros X W. apply (gap_until x w s _ _ word_char); [apply tok_word, X|exact W| |].
  - intros c z H. assert (Hw : white c = false) by (apply name_white; apply andb_true_iff in H as [H _]; exact H).
    unfold stop_at. rewrite is_ws_white, Hw, andb_false_r. cbn [hit]. change (ws_chunk (s2b ">")) with false. change (ws_chunk (s2b "(")) with false.
    change (ws_chunk (s2b " ")) with true. cbv iota. change (s2b ">") with [">"%char]. change (s2b "(") with ["("%char]. cbn [after].
    rewrite !(word_not c _ H) by reflexivity. reflexivity.
  - intros c z H. unfold stop_at. rewrite is_ws_white, H. reflexivity.
Qed.
Lemma skip_gap w s c z : blank w -> s = c :: z -> white c = false -> skip (w ++ s) = s.
Proof. intros B -> W. apply skip_app_here; assumption. Qed.
Lemma content_head b c k : content_text b c -> exists h z, b ++ k = h :: z /\ white h = false.
Proof.
  intros C. destruct C; try (do 2 eexists; split; [reflexivity|reflexivity]). inversion H; subst. do 2 eexists. split; [reflexivity|reflexivity].
Qed.
Lemma element_text w x w1 b c w2 : gap1 w -> is_tok x -> gap1 w1 -> content_text b c -> blank w2 ->
  exists ty p, content_read c ty p /\ forall k l, ~ In x (map el_name (l_elements l)) ->
    t_element (str "<!ELEMENT" ++ w ++ x ++ w1 ++ b ++ w2 ++ ">"%char :: k) l =
      Ok (Some (k, Load (l_elements l ++ [ElDecl x ty p (match p with Some p => compulsory_num p | None => 0%nat end)]) (l_attrs l) (l_entities l) (l_id l) (l_idref l))).
Proof.
  intros W X W1 C B. destruct (content_ok b c w2 C B) as (ty & p & Rd & E0). exists ty, p. split; [exact Rd|]. intros k l N. destruct (E0 k) as (s & E & Sk).
  unfold t_element. 
  match goal with |- context [skip (str "<!ELEMENT" ++ ?z)] => change (after (s2b "<!ELEMENT") (skip (str "<!ELEMENT" ++ z))) with (Some z) end. cbv iota.
  destruct (tok_head x X) as (h & y & Ex & Wh & _).
  rewrite (skip_gap w _ h (y ++ w1 ++ b ++ w2 ++ ">"%char :: k)); [|apply W|rewrite Ex; reflexivity|exact Wh].
  destruct (until_el x w1 (b ++ w2 ++ ">"%char :: k) X W1) as (r & U). rewrite U. change ((2 =? 0) || (2 =? 3)) with false. cbv iota.
  destruct (content_head b c (w2 ++ ">"%char :: k) C) as (h' & z' & E' & Wh').
  rewrite (skip_gap w1 _ h' z') by (apply W1 || assumption). rewrite E. cbn [bindo bind].
  rewrite (cstr_word x) by (apply tok_word, X).
  replace (existsb _ (l_elements l)) with false.
  2:{ symmetry. apply not_true_is_false. intros Q. apply existsb_exists in Q as (e & Ie & Qe). apply bytes_eqb_eq in Qe. apply N. rewrite <- Qe. apply in_map. exact Ie. }
  rewrite Sk. reflexivity.
Qed.
