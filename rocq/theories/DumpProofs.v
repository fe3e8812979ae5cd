(** The dump writes exactly the text of the tree, of exactly the computed size. *)
From Coq Require Import Permutation.
From Verif Require Import Prelude StrModel StrSpec StrProofs AttrModel TreeModel DumpModel XmlSpec.
Open Scope Z_scope.
Local Arguments Z.of_nat : simpl never.
Local Arguments Z.to_nat : simpl never.
Local Arguments Z.add : simpl never.
Local Arguments Z.sub : simpl never.
Local Arguments Z.mul : simpl never.
Local Arguments Z.eqb : simpl never.
Local Arguments Z.ltb : simpl never.
Local Arguments Z.leb : simpl never.

Scheme shows_mut := Induction for shows Sort Prop
with shows_items_mut := Induction for shows_items Sort Prop.
Combined Scheme shows_both from shows_mut, shows_items_mut.

(** [writes f t]: given room, [f] appends [t] at the position *)
Definition writes (f : bytes -> Z -> res (bytes * Z)) (t : bytes) : Prop :=
  forall pre rest, (length t <= length rest)%nat ->
    f (pre ++ rest) (Z.of_nat (length pre)) = Ok (pre ++ t ++ skipn (length t) rest, Z.of_nat (length pre) + Z.of_nat (length t)).

Lemma writes_nil : writes (fun b d => Ok (b, d)) [].
Proof. intros pre rest _. cbn. repeat f_equal. lia. Qed.
Lemma skipn_plus {A} (l : list A) : forall n m, skipn m (skipn n l) = skipn (n + m) l.
Proof. induction l as [|x l IH]; intros [|n] m; simpl; auto; destruct m; reflexivity. Qed.
Lemma writes_seq f g t u : writes f t -> writes g u ->
  writes (fun b d => '(b, d) <- f b d ;; g b d) (t ++ u).
Proof.
  intros F G pre rest L. rewrite app_length in *. rewrite F by lia. cbn [bind].
  replace (Z.of_nat (length pre) + Z.of_nat (length t)) with (Z.of_nat (length (pre ++ t))) by (rewrite app_length; lia).
  rewrite app_assoc, G by (rewrite skipn_length; lia). rewrite skipn_plus, !app_assoc, app_length.
  f_equal. f_equal. lia.
Qed.
Lemma writes_ext f g t : (forall b d, f b d = g b d) -> writes f t -> writes g t.
Proof. intros E F pre rest L. rewrite <- E. apply F, L. Qed.
Lemma writes_put s : writes (fun b d => put b d s) s.
Proof.
  intros pre rest L. unfold put.
  rewrite <- (firstn_skipn (length s) rest) at 1.
  rewrite memcpy_app by (try reflexivity; rewrite firstn_length; lia). reflexivity.
Qed.
Lemma writes_str s : nul_free s -> writes (fun b d => put_str b d (Some s)) s.
Proof.
  intros H pre rest L. unfold put_str. rewrite strlen_cs by assumption. cbn [bind].
  unfold cs. rewrite (mem_sub_app [] s [NUL]) by reflexivity. cbn [bind]. apply writes_put, L.
Qed.
Lemma writes_when (p : bool) f t : writes f t -> writes (when p f) (if p then t else []).
Proof. destruct p; intros H; [exact H|apply writes_nil]. Qed.

Lemma len_ok s : nul_free s -> len (Some s) = Ok (Z.of_nat (length s)).
Proof. apply strlen_cs. Qed.

(** ** attributes *)
Definition good_attr (p : bytes * option bytes) : Prop := nul_free (fst p) /\ exists v, snd p = Some v /\ nul_free v.
Lemma no_quote_has w : nul_free w -> no_quote w = negb (has "'" w).
Proof.
  intros H. unfold no_quote, has. unfold cs. rewrite cstr_holds by assumption. apply (f_equal negb). clear.
  induction w as [|c w IH]; cbn [existsb]; [reflexivity|]. rewrite Ascii.eqb_sym, IH. reflexivity.
Qed.
Lemma writes_pair p : good_attr p -> writes (dump_pair p) (attr_xml p).
Proof.
  intros (Hk & v & Hv & Hn). destruct p as [k w]. cbn in Hk, Hv. subst w.
  unfold dump_pair, attr_xml. cbn [fst snd]. rewrite no_quote_has by assumption.
  replace (if negb (has "'" v) then "'"%char else DQ) with (if has "'" v then "034"%char else "'"%char)
    by (destruct (has "'" v); reflexivity).
  set (q := if has "'" v then _ else _).
  change (sp :: k ++ "="%char :: q :: v ++ [q]) with (s2b " " ++ k ++ ["="%char; q] ++ v ++ [q]).
  apply (writes_seq (fun b d => put b d (s2b " "))); [apply writes_put|].
  apply (writes_seq (fun b d => put_str b d (Some k))); [apply writes_str; assumption|].
  apply (writes_seq (fun b d => put b d ["="%char; q])); [apply writes_put|].
  apply (writes_seq (fun b d => put_str b d (Some v))); [apply writes_str; assumption|].
  apply writes_put.
Qed.
Lemma writes_pairs l : Forall good_attr l -> writes (dump_pairs l) (attrs_xml l).
Proof.
  induction 1 as [|p l Hp Hl IH]; cbn [dump_pairs]; [apply writes_nil|].
  apply (writes_seq (dump_pair p)); [apply writes_pair; assumption|exact IH].
Qed.
Lemma attr_xml_len k v : length (attr_xml (k, Some v)) = (4 + length k + length v)%nat.
Proof. unfold attr_xml. cbn [fst snd]. simpl. rewrite app_length. simpl. rewrite app_length. simpl. lia. Qed.
Lemma pairs_size_ok l : Forall good_attr l -> forall acc, pairs_size l acc = Ok (acc + Z.of_nat (length (attrs_xml l))).
Proof.
  induction 1 as [|p l Hp Hl IH]; intros acc; cbn [pairs_size]; [f_equal; unfold attrs_xml; simpl; lia|].
  destruct p as [k w]. destruct Hp as (Hk & v & Hv & Hn). cbn in Hk, Hv. subst w.
  rewrite !len_ok by assumption. cbn [bind]. rewrite IH. f_equal.
  unfold attrs_xml. cbn [map concat]. rewrite app_length, attr_xml_len. lia.
Qed.
Lemma attrs_xml_perm l l' : Permutation l l' -> length (attrs_xml l) = length (attrs_xml l').
Proof.
  unfold attrs_xml. induction 1; cbn [map concat]; rewrite ?app_length; [reflexivity| | |]; try lia.
Qed.
Lemma attrs_dump a l ats : attr_foreach (fun _ _ => false) a = Ok l -> Permutation l ats -> Forall good_attr ats ->
  exists ats', Permutation l ats' /\ Forall good_attr ats' /\
    writes (dump_attributes_at a) (attrs_xml ats') /\ attrs_size a = Ok (Z.of_nat (length (attrs_xml ats'))).
Proof.
  intros E P G. set (ats' := if a_num a <=? 10 then rev l else l).
  assert (P' : Permutation l ats') by (unfold ats'; destruct (a_num a <=? 10); [apply Permutation_rev|reflexivity]).
  assert (G' : forall x, Permutation l x -> Forall good_attr x).
  { intros x Px. rewrite Forall_forall in *. intros y I. apply G.
    eapply Permutation_in; [exact P|]. eapply Permutation_in; [apply Permutation_sym; exact Px|exact I]. }
  exists ats'. split; [exact P'|]. split; [auto|]. split.
  - intros pre rest L. unfold dump_attributes_at, attr_pairs. rewrite E. cbn [bind]. apply writes_pairs; [apply G', P'|exact L].
  - unfold attrs_size, attr_pairs. rewrite E. cbn [bind]. rewrite pairs_size_ok by (apply G'; reflexivity).
    rewrite (attrs_xml_perm _ _ P'). f_equal.
Qed.

(** ** layout *)
Definition pretty_of (lay : option nat) : bool := match lay with Some _ => true | None => false end.
Definition tab_of (lay : option nat) : Z := match lay with Some t => Z.of_nat t | None => 0 end.
Lemma writes_indent_loop n : writes (fun b d => indent_loop n b d) (repeat sp n).
Proof.
  induction n as [|n IH]; cbn [indent_loop repeat]; [apply writes_nil|].
  apply (writes_seq (fun b d => put b d (s2b " ")) (fun b d => indent_loop n b d) [sp]); [apply writes_put|exact IH].
Qed.
Lemma writes_indent lay lv z : z = Z.of_nat lv ->
  writes (when (pretty_of lay) (fun b d => write_indent b d (tab_of lay) z)) (indent lay lv).
Proof.
  intros ->. destruct lay as [t|]; [|apply writes_nil]. cbn [pretty_of when tab_of indent]. unfold write_indent.
  replace (Z.to_nat (Z.of_nat t * Z.of_nat lv)) with (t * lv)%nat by lia. apply writes_indent_loop.
Qed.
Lemma writes_eol lay : writes (when (pretty_of lay) (fun b d => put b d [LF])) (eol lay).
Proof. destruct lay; [apply writes_put|apply writes_nil]. Qed.
Lemma writes_eol_if (h : bool) lay : writes (when (h && pretty_of lay) (fun b d => put b d [LF])) (if h then eol lay else []).
Proof. destruct h; [apply writes_eol|apply writes_nil]. Qed.
Lemma writes_indent_if (h : bool) lay lv :
  writes (when (h && pretty_of lay) (fun b d => write_indent b d (tab_of lay) (Z.of_nat lv))) (if h then indent lay lv else []).
Proof. destruct h; [apply writes_indent; reflexivity|apply writes_nil]. Qed.
Lemma indent_len lay lv : Z.of_nat (length (indent lay lv)) = if pretty_of lay then Z.of_nat lv * tab_of lay else 0.
Proof. destruct lay as [t|]; [|reflexivity]. cbn. rewrite repeat_length. lia. Qed.
Lemma eol_len lay : Z.of_nat (length (eol lay)) = if pretty_of lay then 1 else 0.
Proof. destruct lay; reflexivity. Qed.

(** ** items *)
Definition dump_items (pretty : bool) (level tabular : Z) :=
  fix go (l : list item) (b : bytes) (desp : Z) {struct l} : res (bytes * Z) :=
    match l with
    | [] => Ok (b, desp)
    | i :: r => '(b, desp) <- dump_item i b desp pretty level tabular ;; go r b desp
    end.
Definition items_size (pretty : bool) (level tabular : Z) :=
  fix go (l : list item) (acc : Z) {struct l} : res Z :=
    match l with
    | [] => Ok acc
    | i :: r => x <- item_flat_size i pretty level tabular ;; go r (acc + x)
    end.
Lemma dump_at_eq name a items b desp pretty level tabular :
  dump_at (Node name a items) b desp pretty level tabular =
  '(b, desp) <- when pretty (fun b desp => write_indent b desp tabular level) b desp ;;
  if items_empty items && negb (items_childs_aux items) then
    '(b, desp) <- put b desp (s2b "<") ;;
    '(b, desp) <- put_str b desp (Some name) ;;
    '(b, desp) <- dump_attributes_at a b desp ;;
    '(b, desp) <- put b desp (s2b " />") ;;
    when pretty (fun b desp => put b desp [LF]) b desp
  else
    '(b, desp) <- put b desp (s2b "<") ;;
    '(b, desp) <- put_str b desp (Some name) ;;
    '(b, desp) <- dump_attributes_at a b desp ;;
    '(b, desp) <- put b desp (s2b ">") ;;
    '(b, desp) <- when (items_childs_aux items && pretty) (fun b desp => put b desp [LF]) b desp ;;
    '(b, desp) <- dump_items pretty level tabular items b desp ;;
    '(b, desp) <- when (items_childs_aux items && pretty) (fun b desp => write_indent b desp tabular level) b desp ;;
    '(b, desp) <- put b desp (s2b "</") ;;
    '(b, desp) <- put_str b desp (Some name) ;;
    '(b, desp) <- put b desp (s2b ">") ;;
    when pretty (fun b desp => put b desp [LF]) b desp.
Proof. reflexivity. Qed.
Lemma flat_size_eq name a items pretty level tabular :
  node_flat_size (Node name a items) pretty level tabular =
  (l <- len (Some name) ;;
  s <- attrs_size a ;;
  if items_childs_aux items || negb (items_empty items) then
    items_size pretty level tabular items
      (if pretty then if items_childs_aux items then 5 + 2 * l + s + (level * tabular * 2 + 2) else 5 + 2 * l + s + (level * tabular + 1)
       else 5 + 2 * l + s)
  else Ok (if pretty then l + 4 + s + (level * tabular + 1) else l + 4 + s)).
Proof. reflexivity. Qed.

Lemma rd_hd s : rd (cs s) 0 = Ok (hd NUL s).
Proof. destruct s; reflexivity. Qed.
Lemma rd_end s : s <> [] -> rd (cs s) (Z.of_nat (length s) - 1) = Ok (last s NUL).
Proof.
  intros H. destruct (exists_last H) as (t & c & ->). unfold cs. rewrite app_length. simpl length.
  rewrite <- app_assoc. cbn [app]. rewrite (rd_app t c) by lia. f_equal. rewrite last_last. reflexivity.
Qed.

Definition item_ok (i : item) (x : xitem) : Prop :=
  forall lay lv, writes (fun b d => dump_item i b d (pretty_of lay) (Z.of_nat lv) (tab_of lay)) (item_xml lay lv x) /\
    item_flat_size i (pretty_of lay) (Z.of_nat lv) (tab_of lay) = Ok (Z.of_nat (length (item_xml lay lv x))).
Definition node_ok (n : node) (x : xnode) : Prop :=
  forall lay lv, writes (fun b d => dump_at n b d (pretty_of lay) (Z.of_nat lv) (tab_of lay)) (elem_xml lay lv x) /\
    node_flat_size n (pretty_of lay) (Z.of_nat lv) (tab_of lay) = Ok (Z.of_nat (length (elem_xml lay lv x))).
Definition items_ok (l : list item) (m : list xitem) : Prop :=
  (forall lay lv, writes (dump_items (pretty_of lay) (Z.of_nat lv) (tab_of lay) l) (concat (map (item_xml lay lv) m)) /\
    forall acc, items_size (pretty_of lay) (Z.of_nat lv) (tab_of lay) l acc =
      Ok (acc + Z.of_nat (length (concat (map (item_xml lay lv) m))))) /\
  items_empty l && negb (items_childs_aux l) = bare m /\ items_childs_aux l = inner m.

Lemma items_cons i l x m : item_ok i x -> items_ok l m ->
  items_empty (i :: l) && negb (items_childs_aux (i :: l)) = bare (x :: m) -> items_childs_aux (i :: l) = inner (x :: m) ->
  items_ok (i :: l) (x :: m).
Proof.
  intros I [L _] B N. split; [|split; assumption]. intros lay lv. destruct (I lay lv) as [I1 I2]. destruct (L lay lv) as [L1 L2].
  split.
  - cbn [dump_items map concat]. exact (writes_seq _ _ _ _ I1 L1).
  - intros acc. cbn [items_size map concat]. rewrite I2. cbn [bind]. rewrite L2, app_length. f_equal. lia.
Qed.
Lemma bare_inner m : bare m = true -> inner m = false.
Proof. induction m as [|[] m IH]; simpl; intros H; try discriminate; auto. Qed.

Ltac wr := first
  [ apply writes_put | apply writes_str; assumption | apply writes_eol | apply writes_eol_if | apply writes_indent_if
  | apply writes_indent; lia | assumption ].

Lemma item_text t : item_ok (IContent t) (XText t).
Proof. intros lay lv. split; [apply writes_put|reflexivity]. Qed.
Lemma item_cdata t : item_ok (ICdata t) (XCdata t).
Proof.
  intros lay lv. split.
  - cbn [dump_item item_xml].
    apply (writes_seq (fun b d => put b d (s2b "<![CDATA["))); [wr|].
    apply (writes_seq (fun b d => put b d t)); wr.
  - cbn [item_flat_size item_xml]. rewrite !app_length. change (length (str "<![CDATA[")) with 9%nat.
    change (length (str "]]>")) with 3%nat. f_equal. lia.
Qed.
Lemma item_pi n c : nul_free n -> nul_free c -> item_ok (IPi (Pi n (Some c))) (XPi n (Some c)).
Proof.
  intros Hn Hc lay lv. split.
  - cbn [dump_item item_xml pi_name pi_content].
    apply (writes_seq (fun b d => put b d (s2b "<?"))); [wr|].
    apply (writes_seq (fun b d => put_str b d (Some n))); [wr|].
    apply (writes_seq (fun b d => put b d (s2b " "))); [wr|].
    apply (writes_seq (fun b d => put_str b d (Some c))); wr.
  - cbn [item_flat_size item_xml]. unfold pi_size. cbn [pi_name pi_content]. rewrite !len_ok by assumption. cbn [bind].
    rewrite !app_length. change (length (str "<?")) with 2%nat. change (length (str " ")) with 1%nat.
    change (length (str "?>")) with 2%nat. f_equal. lia.
Qed.
Lemma item_comment t : t <> [] -> item_ok (IComment t) (XComment t).
Proof.
  intros Ht lay lv. split.
  - cbn [dump_item item_xml]. unfold padded.
    eapply writes_ext.
    { intros b d. rewrite rd_hd, rd_end by assumption. cbn [bind]. reflexivity. }
    replace (str "<!--" ++ _ ++ str "-->" ++ eol lay) with
      ((if Ascii.eqb (hd NUL t) " " then s2b "<!--" else s2b "<!-- ") ++ t ++
       (if Ascii.eqb (last t NUL) " " then s2b "-->" else s2b " -->") ++ eol lay)
      by (unfold sp; destruct (Ascii.eqb (hd NUL t) " "), (Ascii.eqb (last t NUL) " "); simpl; rewrite <- ?app_assoc; reflexivity).
    apply (writes_seq (when (pretty_of lay) (fun b d => write_indent b d (tab_of lay) (Z.of_nat lv + 1)))); [wr|].
    apply (writes_seq (fun b d => put b d (if Ascii.eqb (hd NUL t) " " then s2b "<!--" else s2b "<!-- "))); [wr|].
    apply (writes_seq (fun b d => put b d t)); [wr|].
    apply (writes_seq (fun b d => put b d (if Ascii.eqb (last t NUL) " " then s2b "-->" else s2b " -->"))); wr.
  - cbn [item_flat_size item_xml]. rewrite rd_hd, rd_end by assumption. cbn [bind]. unfold padded.
    rewrite !app_length, !Nat2Z.inj_add, indent_len, eol_len. change (length (str "<!--")) with 4%nat.
    change (length (str "-->")) with 3%nat. unfold sp. f_equal.
    destruct (Ascii.eqb (hd NUL t) " "), (Ascii.eqb (last t NUL) " "), (pretty_of lay); cbn [andb negb length]; lia.
Qed.
Lemma item_ref t : item_ok (IRef t) (XRef t).
Proof.
  intros lay lv. split.
  - cbn [dump_item item_xml].
    apply (writes_seq (fun b d => put b d (s2b "&"))); [wr|].
    apply (writes_seq (fun b d => put b d t)); wr.
  - cbn [item_flat_size item_xml]. rewrite !app_length. change (length (str "&")) with 1%nat.
    change (length (str ";")) with 1%nat. f_equal. lia.
Qed.
Lemma item_elem n x : node_ok n x -> item_ok (INode n) (XElem x).
Proof.
  intros H lay lv. destruct (H lay (S lv)) as [H1 H2]. cbn [dump_item item_flat_size item_xml].
  rewrite Nat2Z.inj_succ in *. unfold Z.succ in *. auto.
Qed.

Lemma node_dump_ok name a items ats xs : nul_free name -> writes (dump_attributes_at a) (attrs_xml ats) ->
  attrs_size a = Ok (Z.of_nat (length (attrs_xml ats))) -> items_ok items xs -> node_ok (Node name a items) (XNode name ats xs).
Proof.
  intros Hn W S (L & B & N) lay lv. destruct (L lay lv) as [L1 L2]. split.
  - eapply writes_ext; [intros b d; symmetry; apply dump_at_eq|]. cbn [elem_xml]. rewrite B, N. clear B.
    apply (writes_seq (when (pretty_of lay) (fun b d => write_indent b d (tab_of lay) (Z.of_nat lv)))); [wr|].
    destruct (bare xs).
    + 
      apply (writes_seq (fun b d => put b d (s2b "<"))); [wr|].
      apply (writes_seq (fun b d => put_str b d (Some name))); [wr|].
      apply (writes_seq (dump_attributes_at a)); [wr|].
      apply (writes_seq (fun b d => put b d (s2b " />"))); wr.
    + rewrite <- !app_assoc.
      apply (writes_seq (fun b d => put b d (s2b "<"))); [wr|].
      apply (writes_seq (fun b d => put_str b d (Some name))); [wr|].
      apply (writes_seq (dump_attributes_at a)); [wr|].
      apply (writes_seq (fun b d => put b d (s2b ">"))); [wr|].
      apply (writes_seq (when (inner xs && pretty_of lay) (fun b d => put b d [LF]))); [wr|].
      apply (writes_seq (dump_items (pretty_of lay) (Z.of_nat lv) (tab_of lay) items)); [wr|].
      apply (writes_seq (when (inner xs && pretty_of lay) (fun b d => write_indent b d (tab_of lay) (Z.of_nat lv)))); [wr|].
      apply (writes_seq (fun b d => put b d (s2b "</"))); [wr|].
      apply (writes_seq (fun b d => put_str b d (Some name))); [wr|].
      apply (writes_seq (fun b d => put b d (s2b ">"))); wr.
  - rewrite flat_size_eq, len_ok by assumption. cbn [bind]. rewrite S. cbn [bind].
    replace (items_childs_aux items || negb (items_empty items)) with (negb (bare xs))
      by (rewrite <- B; destruct (items_empty items), (items_childs_aux items); reflexivity).
    rewrite N. cbn [elem_xml]. pose proof (bare_inner xs) as BI. destruct (bare xs); cbn [negb].
    + rewrite !app_length, !Nat2Z.inj_add, indent_len, eol_len. change (length (str "<")) with 1%nat.
      change (length (str " />")) with 3%nat. f_equal. destruct (pretty_of lay); lia.
    + rewrite L2. rewrite !app_length, !Nat2Z.inj_add, indent_len, eol_len. change (length (str "<")) with 1%nat.
      change (length (str ">")) with 1%nat. change (length (str "</")) with 2%nat. f_equal.
      destruct (inner xs); rewrite ?indent_len, ?eol_len; destruct (pretty_of lay); cbn [length]; lia.
Qed.

Lemma dump_shows :
  (forall n x, shows n x -> measurable x -> exists x', shows n x' /\ measurable x' /\ node_ok n x') /\
  (forall l m, shows_items l m -> measurable_items m -> exists m', shows_items l m' /\ measurable_items m' /\ items_ok l m').
Proof.
  apply shows_both.
  - intros name a items ats l xs E P _ IH M. inversion M as [? ? ? M1 M2 M3]; subst.
    destruct (IH M3) as (m' & S' & Mm & I). destruct (attrs_dump a l ats E P M2) as (ats' & P' & G' & W & Sz).
    exists (XNode name ats' m'). split; [econstructor; eassumption|]. split; [constructor; assumption|].
    apply node_dump_ok; assumption.
  - intros _. exists []. split; [constructor|]. split; [constructor|]. split; [|split; reflexivity].
    intros lay lv. split; [apply writes_nil|]. intros acc. cbn. f_equal. lia.
  - intros n x l m _ IHn _ IHl M. inversion M as [|? ? M1 M2| | | | |]; subst.
    destruct (IHn M1) as (x' & ? & ? & ?), (IHl M2) as (m' & ? & ? & ?).
    exists (XElem x' :: m'). split; [constructor; assumption|]. split; [constructor; assumption|].
    apply items_cons; [apply item_elem; assumption|assumption| |reflexivity].
    cbn. destruct (items_empty l); reflexivity.
  - intros t l m _ IHl M. inversion M; subst. destruct (IHl ltac:(assumption)) as (m' & ? & ? & Ok').
    exists (XText t :: m'). split; [constructor; assumption|]. split; [constructor; assumption|].
    apply items_cons; [apply item_text|assumption|reflexivity|apply Ok'].
  - intros t l m _ IHl M. inversion M; subst. destruct (IHl ltac:(assumption)) as (m' & ? & ? & Ok').
    exists (XCdata t :: m'). split; [constructor; assumption|]. split; [constructor; assumption|].
    apply items_cons; [apply item_cdata|assumption|reflexivity|apply Ok'].
  - intros [n c] l m _ IHl M. cbn [pi_name pi_content] in M. inversion M; subst.
    destruct (IHl ltac:(assumption)) as (m' & ? & ? & Ok').
    exists (XPi n (Some c0) :: m'). split; [apply (shows_pi (Pi n (Some c0))); assumption|]. split; [constructor; assumption|].
    apply items_cons; [apply item_pi; assumption|assumption| |reflexivity].
    cbn. destruct (items_empty l); reflexivity.
  - intros t l m _ IHl M. inversion M; subst. destruct (IHl ltac:(assumption)) as (m' & ? & ? & Ok').
    exists (XComment t :: m'). split; [constructor; assumption|]. split; [constructor; assumption|].
    apply items_cons; [apply item_comment; assumption|assumption| |reflexivity].
    cbn. destruct (items_empty l); reflexivity.
  - intros t l m _ IHl M. inversion M; subst. destruct (IHl ltac:(assumption)) as (m' & ? & ? & Ok').
    exists (XRef t :: m'). split; [constructor; assumption|]. split; [constructor; assumption|].
    apply items_cons; [apply item_ref|assumption|apply Ok'|apply Ok'].
Qed.

Lemma skipn_block n : skipn n (repeat NUL (S n)) = [NUL].
Proof. induction n; [reflexivity|]. exact IHn. Qed.
Lemma new_block_nat n : new_block (Z.of_nat n) = repeat NUL (S n).
Proof. unfold new_block. f_equal. lia. Qed.

Lemma node_dump_common_ok n x lay : node_ok n x ->
  node_dump_common n (pretty_of lay) 0 (tab_of lay) =
  Ok (Some (elem_xml lay 0 x ++ [NUL], Z.of_nat (length (elem_xml lay 0 x)))).
Proof.
  intros H. destruct (H lay 0%nat) as [W S]. unfold node_dump_common. change (Z.of_nat 0) with 0 in *. rewrite S. cbn [bind].
  rewrite new_block_nat. specialize (W [] (repeat NUL (Datatypes.S (length (elem_xml lay 0 x))))).
  cbn [app length] in W. change (Z.of_nat 0) with 0 in W. rewrite W by (rewrite repeat_length; lia). cbn [bind].
  rewrite skipn_block. rewrite Z.add_0_l, Z.eqb_refl. reflexivity.
Qed.
Lemma doc_dump_common_ok n x lay e sa pis : node_ok n x -> (forall v, e = Some v -> nul_free v) ->
  doc_dump_common (Doc (Some n) e sa pis) (pretty_of lay) (tab_of lay) =
  Ok (Some (doc_xml lay e sa x ++ [NUL], Z.of_nat (length (doc_xml lay e sa x)))).
Proof.
  intros H He. destruct (H lay 0%nat) as [W S]. change (Z.of_nat 0) with 0 in *.
  assert (Sz : doc_flat_size (Doc (Some n) e sa pis) (pretty_of lay) (tab_of lay) = Ok (Z.of_nat (length (doc_xml lay e sa x)))).
  { unfold doc_flat_size. cbn [d_standalone d_encoding d_root]. unfold doc_xml, decl_xml.
    rewrite !app_length. change (length (str "<?xml version='1.0' ")) with 20%nat. change (length (str "?>")) with 2%nat.
    rewrite !Nat2Z.inj_add, eol_len. destruct e as [v|].
    - rewrite len_ok by auto. cbn [bind]. rewrite S. cbn [bind]. rewrite !app_length.
      change (length (str "encoding='")) with 10%nat. change (length (str "' ")) with 2%nat. f_equal.
      destruct sa; [change (length (str "standalone='yes' ")) with 17%nat|]; destruct (pretty_of lay); cbn [length]; lia.
    - cbn [bind]. rewrite S. cbn [bind]. f_equal.
      destruct sa; [change (length (str "standalone='yes' ")) with 17%nat|]; destruct (pretty_of lay); cbn [length]; lia. }
  unfold doc_dump_common. rewrite Sz. cbn [bind].
  destruct (Z.eqb_spec (Z.of_nat (length (doc_xml lay e sa x))) (-1)); [lia|].
  rewrite new_block_nat. cbn [d_encoding d_standalone d_root].
  assert (D : writes (fun b index =>
    '(b, index) <- put b index (s2b "<?xml version='1.0' ") ;;
    '(b, index) <-
      match e with
      | None => Ok (b, index)
      | Some e =>
        '(b, index) <- put b index (s2b "encoding='") ;;
        '(b, index) <- put_str b index (Some e) ;;
        put b index (s2b "' ")
      end ;;
    '(b, index) <- when sa (fun b i => put b i (s2b "standalone='yes' ")) b index ;;
    '(b, index) <- put b index (s2b "?>") ;;
    '(b, index) <- when (pretty_of lay) (fun b i => put b i [LF]) b index ;;
    dump_at n b index (pretty_of lay) 0 (tab_of lay)) (doc_xml lay e sa x)).
  { unfold doc_xml, decl_xml. rewrite <- !app_assoc.
    apply (writes_seq (fun b d => put b d (s2b "<?xml version='1.0' "))); [wr|].
    apply (writes_seq (fun b index => match e with
      | None => Ok (b, index)
      | Some e =>
        '(b, index) <- put b index (s2b "encoding='") ;;
        '(b, index) <- put_str b index (Some e) ;;
        put b index (s2b "' ")
      end)).
    { destruct e as [v|]; [|apply writes_nil]. specialize (He v eq_refl).
      apply (writes_seq (fun b d => put b d (s2b "encoding='"))); [wr|].
      apply (writes_seq (fun b d => put_str b d (Some v))); wr. }
    apply (writes_seq (when sa (fun b i => put b i (s2b "standalone='yes' ")))); [apply writes_when; wr|].
    apply (writes_seq (fun b d => put b d (s2b "?>"))); [wr|].
    apply (writes_seq (when (pretty_of lay) (fun b i => put b i [LF]))); [wr|]. exact W. }
  specialize (D [] (repeat NUL (Datatypes.S (length (doc_xml lay e sa x))))). rewrite skipn_block in D.
  cbn [app length] in D. change (Z.of_nat 0) with 0 in D. specialize (D ltac:(rewrite repeat_length; lia)).
  clear - D. set (b0 := repeat NUL _) in *. clearbody b0. set (T := doc_xml lay e sa x) in *. clearbody T.
  destruct (put b0 0 _) as [[b1 i1]| |]; cbn [bind] in D |- *; try discriminate.
  match type of D with bind ?m _ = _ => destruct m as [[b2 i2]| |]; cbn [bind] in D |- *; try discriminate end.
  destruct (when sa _ b2 i2) as [[b3 i3]| |]; cbn [bind] in D |- *; try discriminate.
  destruct (put b3 i3 _) as [[b4 i4]| |]; cbn [bind] in D |- *; try discriminate.
  destruct (when (pretty_of lay) _ b4 i4) as [[b5 i5]| |]; cbn [bind] in D |- *; try discriminate.
  rewrite D. cbn [bind]. rewrite Z.add_0_l, Z.eqb_refl. reflexivity.
Qed.
