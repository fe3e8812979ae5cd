(** What a browser shows of the parts of a page; the attributes. *)
From Coq Require Import Permutation.
From Verif Require Import Prelude StrModel StrSpec StrProofs StrProofs2 StrProofs3 EscModel EscSpec EscProofs EscProofs2 AttrSpec AttrModel AttrExec AttrProofs
  TreeModel XmlSpec ParseProofs DumpProofs GramProofs GramProofs4 EqModel EqSpec EqProofs EqProofs2 HtmlModel HtmlSpec.
Open Scope nat_scope.
Open Scope list_scope.

Lemma bind_ok {A B} (r : res A) (k : A -> res B) b : bind r k = Ok b -> exists a, r = Ok a /\ k a = Ok b.
Proof. destruct r; cbn; try discriminate. eauto. Qed.

(** ** pages *)
Lemma displays_app a x b y : displays a x -> displays b y -> displays (a ++ b) (x ++ y).
Proof.
  intros H Hb. induction H; [exact Hb| | | | |].
  - cbn [app]. constructor; assumption.
  - rewrite <- !app_assoc. apply displays_lt, IHdisplays.
  - rewrite <- !app_assoc. apply displays_gt, IHdisplays.
  - rewrite <- !app_assoc. apply displays_amp, IHdisplays.
  - rewrite <- app_assoc. apply displays_tag; assumption.
Qed.
Lemma displays_plain s : has "<" s = false -> has "&" s = false -> displays s s.
Proof.
  induction s as [|c s IH]; intros H1 H2; [constructor|]. unfold has in *. cbn [existsb] in *. apply orb_false_iff in H1, H2. destruct H1 as [H1 H1'], H2 as [H2 H2'].
  constructor; [intros ->; discriminate|intros ->; discriminate|]. apply IH; assumption.
Qed.
Lemma displays_tag0 g : tag g -> displays g [].
Proof. intros H. rewrite <- (app_nil_r g). apply displays_tag; [exact H|constructor]. Qed.
Lemma displays_lt0 : displays (str "&lt;") (str "<").
Proof. apply (displays_lt [] []). constructor. Qed.
Lemma displays_gt0 : displays (str "&gt;") (str ">").
Proof. apply (displays_gt [] []). constructor. Qed.

Lemma tag_start c b r : letter c -> has "<" b = false -> has ">" b = false -> r = str "<" ++ c :: b ++ str ">" -> tag r.
Proof. intros H1 H2 H3 ->. exists c, b. auto. Qed.
Lemma tag_stop c b r : letter c -> has "<" b = false -> has ">" b = false -> r = str "</" ++ c :: b ++ str ">" -> tag r.
Proof. intros H1 H2 H3 ->. exists c, b. auto. Qed.
Ltac letter_tac := unfold letter; vm_compute; intuition discriminate.
Lemma span_node : displays (span "node") [].
Proof. apply displays_tag0, (tag_start "s" (s2b "pan class=" ++ quoted "node")); [letter_tac|reflexivity..]. Qed.
Lemma span_attr : displays (span "attrvalue") [].
Proof. apply displays_tag0, (tag_start "s" (s2b "pan class=" ++ quoted "attrvalue")); [letter_tac|reflexivity..]. Qed.
Lemma span_comment : displays (span "comment") [].
Proof. apply displays_tag0, (tag_start "s" (s2b "pan class=" ++ quoted "comment")); [letter_tac|reflexivity..]. Qed.
Lemma span_cdata : displays (span "cdata") [].
Proof. apply displays_tag0, (tag_start "s" (s2b "pan class=" ++ quoted "cdata")); [letter_tac|reflexivity..]. Qed.
Lemma span_end : displays (s2b "</span>") [].
Proof. apply displays_tag0, (tag_stop "s" (s2b "pan")); [letter_tac|reflexivity..]. Qed.
Lemma pre_end : displays (s2b "</pre>") [].
Proof. apply displays_tag0, (tag_stop "p" (s2b "re")); [letter_tac|reflexivity..]. Qed.
Lemma pre_start cls : class_ok cls -> displays (match cls with Some v => s2b "<pre class='" ++ v ++ s2b "'>" | None => s2b "<pre>" end) [].
Proof.
  intros H. apply displays_tag0. destruct cls as [v|].
  - destruct (H v eq_refl) as [H1 H2]. apply (tag_start "p" (s2b "re class='" ++ v ++ s2b "'")); [letter_tac| | |].
    + rewrite !has_app, H1. reflexivity.
    + rewrite !has_app, H2. reflexivity.
    + cbn [s2b list_ascii_of_string app str]. rewrite <- app_assoc. reflexivity.
  - apply (tag_start "p" (s2b "re")); [letter_tac|reflexivity..].
Qed.

(** one page shows one text *)
Lemma tag_head g s : tag g -> exists c r, g ++ s = "<"%char :: c :: r.
Proof. intros (c & b & _ & [ -> | -> ] & _); eexists _, _; reflexivity. Qed.
Lemma to_bracket b : forall b' s s', has ">" b = false -> has ">" b' = false -> b ++ str ">" ++ s = b' ++ str ">" ++ s' -> b = b' /\ s = s'.
Proof.
  induction b as [|x b IH]; intros [|y b'] s s' H H' E; unfold has in *; cbn [existsb app str s2b list_ascii_of_string] in *.
  - injection E as ->. auto.
  - injection E as <- E. discriminate.
  - injection E as -> E. discriminate.
  - injection E as -> E. apply orb_false_iff in H, H'. destruct H as [_ H], H' as [_ H']. destruct (IH b' s s' H H' E) as [-> ->]. auto.
Qed.
Lemma tag_once g g' s s' : tag g -> tag g' -> g ++ s = g' ++ s' -> s = s'.
Proof.
  intros (c & b & L & G & _ & B) (c' & b' & L' & G' & _ & B') E.
  assert (S1 : forall c, letter c -> c <> "/"%char) by (intros z Hz ->; revert Hz; letter_tac).
  destruct G as [ -> | -> ], G' as [ -> | -> ]; cbn [str s2b list_ascii_of_string app] in E; rewrite <- ?app_assoc in E.
  - injection E as <- E. apply to_bracket in E; tauto.
  - injection E as -> E. exfalso. apply (S1 _ L). reflexivity.
  - injection E as E0 E. exfalso. apply (S1 _ L'). auto.
  - injection E as <- E. apply to_bracket in E; tauto.
Qed.
Lemma displays_once s t : displays s t -> forall t', displays s t' -> t = t'.
Proof.
  intros H. induction H as [|c s t N1 N2 H IH|s t H IH|s t H IH|s t H IH|g s t G H IH]; intros t' H'.
  - inversion H' as [| | | | |g' s' t0 G' H0 E]; [reflexivity|]. destruct (tag_head g' s' G') as (c & r & E'). congruence.
  - inversion H' as [|c' s' t0 M1 M2 H0|s' t0 H0 E|s' t0 H0 E|s' t0 H0 E|g' s' t0 G' H0 E]; subst.
    + f_equal. apply IH, H0.
    + exfalso. apply N2. reflexivity.
    + exfalso. apply N2. reflexivity.
    + exfalso. apply N2. reflexivity.
    + destruct (tag_head g' s' G') as (x & r & E'). rewrite E' in E. injection E as E1 E2. exfalso. apply N1. auto.
  - inversion H' as [|c' s' t0 M1 M2 H0|s' t0 H0 E|s' t0 H0 E|s' t0 H0 E|g' s' t0 G' H0 E]; subst.
    + exfalso. apply M2. reflexivity.
    + cbn. f_equal. apply IH, H0.
    + destruct (tag_head g' s' G') as (x & r & E'). rewrite E' in E. discriminate.
  - inversion H' as [|c' s' t0 M1 M2 H0|s' t0 H0 E|s' t0 H0 E|s' t0 H0 E|g' s' t0 G' H0 E]; subst.
    + exfalso. apply M2. reflexivity.
    + cbn. f_equal. apply IH, H0.
    + destruct (tag_head g' s' G') as (x & r & E'). rewrite E' in E. discriminate.
  - inversion H' as [|c' s' t0 M1 M2 H0|s' t0 H0 E|s' t0 H0 E|s' t0 H0 E|g' s' t0 G' H0 E]; subst.
    + exfalso. apply M2. reflexivity.
    + cbn. f_equal. apply IH, H0.
    + destruct (tag_head g' s' G') as (x & r & E'). rewrite E' in E. discriminate.
  - destruct (tag_head g s G) as (x & r & E'). inversion H' as [E|c' s' t0 M1 M2 H0 E|s' t0 H0 E|s' t0 H0 E|s' t0 H0 E|g' s' t0 G' H0 E]; subst.
    + rewrite E' in E. discriminate.
    + rewrite E' in E. injection E as -> _. exfalso. apply M1. reflexivity.
    + rewrite E' in E. discriminate.
    + rewrite E' in E. discriminate.
    + rewrite E' in E. discriminate.
    + apply IH. rewrite (tag_once g g' s s' G G' (eq_sym E)). exact H0.
Qed.

(** ** the texts *)
Definition put (c : ascii) (rep s : bytes) : bytes := flat_map (fun x => if Ascii.eqb c x then rep else [x]) s.
Lemma pieces_one c rep s : exists x l, pieces [[c]] s (x :: l) /\ joined rep (x :: l) = put c rep s.
Proof.
  induction s as [|y s (x & l & P & J)]; [exists [], []; split; [constructor|reflexivity]|]. unfold put. cbn [flat_map]. fold (put c rep s).
  destruct (Ascii.eqb_spec c y) as [->|N].
  - exists [], (x :: l). split; [|rewrite <- J; reflexivity]. apply (pieces_cut _ _ [y] s); [|exact P]. cbn. rewrite Ascii.eqb_refl. reflexivity.
  - exists (y :: x), l. split.
    + apply pieces_char; [|exact P]. cbn. apply Ascii.eqb_neq in N. rewrite N. reflexivity.
    + rewrite <- J. cbn [app]. destruct l; reflexivity.
Qed.
Lemma put_free c rep s : nul_free rep -> nul_free s -> nul_free (put c rep s).
Proof.
  intros R H X. unfold put in X. apply in_flat_map in X. destruct X as (x & X1 & X2). destruct (Ascii.eqb c x); [exact (R X2)|].
  destruct X2 as [ -> |[]]. exact (H X1).
Qed.
Lemma replace_one b s c rep : c <> NUL -> nul_free rep -> holds b s ->
  exists b' n, stream_replace b (-1) (cs [c]) (-1) (cs rep) (-1) = Ok (b', n) /\ holds b' (put c rep s).
Proof.
  intros Nc Nr H. destruct (pieces_one c rep s) as (x & l & P & J).
  destruct (replace_ok b s [c] rep (x :: l) (-1) (-1) (-1) H) as (b' & E & Hb & _); auto.
  { intros [X|[]]. auto. }
  rewrite J in *. eauto.
Qed.
Definition shown (s : bytes) : bytes := put ">" (s2b "&gt;") (put "<" (s2b "&lt;") s).
Lemma translate_ok s : nul_free s -> translate_content s = Ok (shown s).
Proof.
  intros H. unfold translate_content. unfold cs at 1. rewrite strdup_ok by exact H. cbn [bind].
  assert (H0 : holds (cs s) s) by (split; [exact H|exists []; reflexivity]).
  destruct (replace_one (cs s) s "<" (s2b "&lt;") ltac:(discriminate) ltac:(intros X; repeat (destruct X as [X|X]; [discriminate|]); exact X) H0) as (b1 & n1 & E1 & H1).
  cbn [s2b list_ascii_of_string] in E1 |- *. rewrite E1. cbn [bind].
  destruct (replace_one b1 _ ">" (s2b "&gt;") ltac:(discriminate) ltac:(intros X; repeat (destruct X as [X|X]; [discriminate|]); exact X) H1) as (b2 & n2 & E2 & H2).
  cbn [s2b list_ascii_of_string] in E2 |- *. rewrite E2. cbn [bind]. destruct H2 as (F & rest & ->). f_equal.
  change (put ">" (s2b "&gt;") (put "<" (s2b "&lt;") s)) with (shown s) in *.
  clear -F. induction (shown s) as [|c t IH]; [reflexivity|]. cbn [app cstr]. destruct (Ascii.eqb_spec c NUL) as [->|N].
  - exfalso. apply F. left. reflexivity.
  - f_equal. apply IH. intros X. apply F. right. exact X.
Qed.
Lemma shown_cons c s : shown (c :: s) = (if Ascii.eqb "<" c then s2b "&lt;" else if Ascii.eqb ">" c then s2b "&gt;" else [c]) ++ shown s.
Proof.
  unfold shown, put at 2. cbn [flat_map]. fold (put "<" (s2b "&lt;") s). unfold put at 1. rewrite flat_map_app. fold (put ">" (s2b "&gt;") (put "<" (s2b "&lt;") s)). f_equal.
  destruct (Ascii.eqb_spec "<" c) as [<-|N1]; [reflexivity|]. cbn [flat_map app]. rewrite app_nil_r. reflexivity.
Qed.
Lemma shown_displays s : plain_text s -> displays (shown s) s.
Proof.
  unfold plain_text. induction s as [|c s IH]; intros H; [constructor|]. unfold has in H. cbn [existsb] in H. apply orb_false_iff in H. destruct H as [H H'].
  rewrite shown_cons. change (c :: s) with ([c] ++ s). apply displays_app; [|apply IH, H'].
  destruct (Ascii.eqb_spec "<" c) as [<-|N1]; [apply displays_lt0|]. destruct (Ascii.eqb_spec ">" c) as [<-|N2]; [apply displays_gt0|].
  apply displays_char; [auto| |constructor]. intros ->. discriminate.
Qed.

(** ** white space *)
Lemma blank_indentation n : blank (indentation n).
Proof. induction n; [reflexivity|]. exact IHn. Qed.
Lemma blank_repeat n : blank (repeat " "%char n).
Proof. induction n; [reflexivity|]. exact IHn. Qed.
Lemma blank_enter (b : bool) : blank (if b then [] else [LF]).
Proof. destruct b; reflexivity. Qed.
Lemma blank_without c w : blank w -> white c = false -> has c w = false.
Proof.
  unfold blank, has. induction w as [|x w IH]; cbn [forallb existsb]; intros H N; [reflexivity|]. apply andb_true_iff in H. destruct H as [H1 H2].
  rewrite IH by assumption. rewrite orb_false_r. apply Ascii.eqb_neq. intros ->. congruence.
Qed.
Lemma blank_displays w : blank w -> displays w w.
Proof. intros H. apply displays_plain; apply blank_without; trivial; reflexivity. Qed.
Lemma has_nul_free s : has NUL s = false -> nul_free s.
Proof. intros H X. assert (E : has NUL s = true) by (apply existsb_exists; exists NUL; split; [exact X|apply Ascii.eqb_refl]). congruence. Qed.
Lemma blank_nul_free w : blank w -> nul_free w.
Proof. intros H. apply has_nul_free, blank_without; [exact H|reflexivity]. Qed.
Lemma drop_white_app2 s w : ~ blank s -> drop_white (s ++ w) = drop_white s ++ w.
Proof.
  unfold blank. induction s as [|c s IH]; intros H; [exfalso; apply H; reflexivity|]. cbn [forallb app drop_white] in *. destruct (white c); [apply IH, H|reflexivity].
Qed.
Lemma blank_dec s : {blank s} + {~ blank s}.
Proof. unfold blank. destruct (forallb white s); [left|right]; congruence. Qed.
Lemma strip_around w s w' : blank w -> blank w' -> strip (w ++ s ++ w') = strip s.
Proof.
  intros H H'. unfold strip. rewrite drop_white_app by exact H. destruct (blank_dec s) as [B|B].
  - rewrite (drop_white_all s B), (drop_white_all (s ++ w')) by (apply blank_app; assumption). reflexivity.
  - rewrite drop_white_app2 by exact B. rewrite rev_app_distr, drop_white_app by (rewrite forallb_rev; exact H'). reflexivity.
Qed.
Lemma strip_around_same w s w' : blank w -> blank w' -> same_text true s (w ++ s ++ w').
Proof. intros H H'. cbn. symmetry. apply strip_around; assumption. Qed.
Lemma blank_inside w s w' : ~ blank s -> ~ blank (w ++ s ++ w').
Proof. unfold blank. rewrite !forallb_app. intros H E. apply H. apply andb_true_iff in E. destruct E as [_ E]. apply andb_true_iff in E. tauto. Qed.

(** ** attributes *)
Definition attr_out (p : bytes * option bytes) : bytes :=
  fst p ++ s2b "=" ++ span "attrvalue" ++ ["034"%char] ++ match snd p with Some v => v | None => [] end ++ ["034"%char] ++ s2b "</span> ".
Fixpoint apart (sep : bytes) (l : list (bytes * option bytes)) : bytes :=
  match l with
  | [] => []
  | p :: r => attr_out p ++ match r with [] => [] | _ => sep end ++ apart sep r
  end.
Definition given (p : bytes * option bytes) : Prop := exists v, snd p = Some v.
Lemma attr_html_ok p : given p -> attr_html (Some p) = Ok (attr_out p).
Proof. intros (v & E). destruct p as [k o]. cbn [snd] in E. subst o. reflexivity. Qed.
Lemma walk_short a : forall fuel c l, attr_walk fuel a c = Ok l -> Forall given l -> attrs_short fuel a c = Ok (apart [] l).
Proof.
  induction fuel as [|fuel IH]; intros c l; cbn [attr_walk attrs_short]; [discriminate|]. destruct (attr_cursor_has_item a c); [|intros H _; injection H as <-; reflexivity].
  intros H F. apply bind_ok in H as (o & -> & H). apply bind_ok in H as (p & Ep & H). apply bind_ok in H as (c' & -> & H). apply bind_ok in H as (r & Er & H). injection H as <-.
  inversion F as [|? ? F1 F2]; subst. destruct o as [p'|]; [|discriminate]. injection Ep as ->. cbn [bind]. rewrite attr_html_ok by exact F1. cbn [bind]. rewrite (IH _ _ Er F2). cbn [bind apart].
  destruct r; reflexivity.
Qed.
Definition separation (skip : bool) (level : nat) (name : bytes) : bytes := (if skip then [] else [LF]) ++ indentation level ++ repeat " "%char (length name + 2).
Lemma walk_long a skip level name : forall fuel c l, attr_walk fuel a c = Ok l -> Forall given l -> attrs_long fuel skip level name a c = Ok (apart (separation skip level name) l).
Proof.
  induction fuel as [|fuel IH]; intros c l; cbn [attr_walk attrs_long]; [discriminate|]. destruct (attr_cursor_has_item a c); [|intros H _; injection H as <-; reflexivity].
  intros H F. apply bind_ok in H as (o & -> & H). apply bind_ok in H as (p & Ep & H). apply bind_ok in H as (c' & -> & H). apply bind_ok in H as (r & Er & H). injection H as <-.
  inversion F as [|? ? F1 F2]; subst. destruct o as [p'|]; [|discriminate]. injection Ep as ->. cbn [bind]. rewrite attr_html_ok by exact F1. cbn [bind].
  assert (I : attr_cursor_has_item a c' = match r with [] => false | _ => true end).
  { destruct fuel as [|fuel]; [discriminate|]. cbn [attr_walk] in Er. destruct (attr_cursor_has_item a c'); [|injection Er as <-; reflexivity].
    apply bind_ok in Er as (? & _ & Er). apply bind_ok in Er as (? & _ & Er). apply bind_ok in Er as (? & _ & Er). apply bind_ok in Er as (? & _ & Er). injection Er as <-. reflexivity. }
  rewrite (IH _ _ Er F2), I. cbn [bind apart]. destruct r; reflexivity.
Qed.

Lemma attrs_shown sep l : blank sep -> Forall is_attr l -> NoDup (map fst l) -> Forall plain_attr l ->
  exists t w, displays (s2b " " ++ apart sep l) (t ++ w) /\ attrs_text t l /\ blank w.
Proof.
  intros Hs. assert (G : forall lead, blank lead -> lead <> [] -> forall l, Forall is_attr l -> NoDup (map fst l) -> Forall plain_attr l ->
    exists t w, displays (lead ++ apart sep l) (t ++ w) /\ attrs_text t l /\ blank w).
  { intros lead Hl Nl l0. revert lead Hl Nl. induction l0 as [|[k o] r IH]; intros lead Hl Nl F N P.
    - exists [], lead. cbn [apart app]. rewrite app_nil_r. split; [apply blank_displays, Hl|]. split; [constructor|exact Hl].
    - inversion F as [|? ? F1 F2]; subst. inversion N as [|? ? N1 N2]; subst. inversion P as [|? ? P1 P2]; subst.
      destruct F1 as (Nk & Ns & v & Ev & Nv & _). cbn [fst snd] in *. subst o. destruct (P1 v eq_refl) as (Q1 & Q2 & Q3). cbn [snd] in *.
      cbn [apart]. unfold attr_out. cbn [fst snd].
      destruct (IH (s2b " " ++ match r with [] => [] | _ => sep end)) as (t & w & D & T & B); auto.
      { destruct r; [reflexivity|]. apply blank_app; [reflexivity|exact Hs]. }
      { discriminate. }
      exists (lead ++ k ++ str "=" ++ ["034"%char] ++ v ++ ["034"%char] ++ t), w. split; [|split; [|exact B]].
      + rewrite <- !app_assoc. apply displays_app; [apply blank_displays, Hl|]. destruct Nk as [Nk0 Nk].
        assert (K : forall c, name_char c = false -> has c k = false).
        { intros c Hc. clear -Nk Hc. unfold has. induction k as [|x k IH]; [reflexivity|]. cbn [forallb existsb] in *. apply andb_true_iff in Nk. destruct Nk as [N1 N2]. rewrite (IH N2), orb_false_r.
          apply Ascii.eqb_neq. intros ->. congruence. }
        apply displays_app; [apply displays_plain; apply K; reflexivity|]. apply displays_app; [apply displays_plain; reflexivity|].
        apply (displays_app (span "attrvalue") []); [apply span_attr|]. apply (displays_app ["034"%char] ["034"%char]); [apply displays_plain; reflexivity|].
        apply displays_app; [apply displays_plain; assumption|]. apply displays_app; [apply displays_plain; reflexivity|].
        change (s2b "</span> ") with (s2b "</span>" ++ s2b " "). rewrite <- app_assoc. apply (displays_app (s2b "</span>") []); [apply span_end|].
        rewrite <- app_assoc in D. exact D.
      + apply attrs_more; auto. right. reflexivity. }
  intros F N P. apply (G (s2b " ")); auto; [reflexivity|discriminate].
Qed.

(** all attributes of a node *)
Lemma attrs_of a ats l : made a -> attr_foreach (fun _ _ => false) a = Ok l -> Permutation l ats ->
  exists c num, attr_cursor_new a = Ok c /\ num_attributes a = Ok num /\ attr_walk (S (Z.to_nat num)) a c = Ok l /\ (has_attributes a = false -> l = []).
Proof.
  intros M E P. destruct (made_arep a M) as (m & R & _). destruct (enumerate_ok a m R) as (order & Po & Fo & c & C1 & C2).
  assert (L : l = order).
  { rewrite Fo in E. injection E as <-. clear. induction order as [|[k v] r IH]; [reflexivity|]. cbn [HashSpec.take_until] in *. rewrite IH. reflexivity. }
  subst order. exists c, (Z.of_nat (length l)). rewrite (num_attributes_ok a m R), (Permutation_length Po), Nat2Z.id. repeat split; auto.
  - rewrite <- (Permutation_length Po). exact C2.
  - intros H. unfold has_attributes in H. apply negb_false_iff in H. unfold attr_foreach in E. rewrite H in E. injection E as <-. reflexivity.
Qed.
