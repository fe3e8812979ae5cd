(** Comments, processing instructions, attributes and tags of well-formed texts. *)
From Coq Require Import Permutation.
From Verif Require Import Prelude StrModel StrSpec StrProofs EscProofs StrProofs2 StrProofs3 AttrModel AttrSpec AttrProofs
  TreeModel StreamModel StreamProofs ParseModel ParseProofs ParseProofs2 XmlSpec GramProofs.
Open Scope Z_scope.
Local Arguments Z.of_nat : simpl never.
Local Arguments Z.to_nat : simpl never.
Local Arguments Z.add : simpl never.
Local Arguments Z.sub : simpl never.
Local Arguments Z.eqb : simpl never.
Local Arguments Z.ltb : simpl never.
Local Arguments Z.leb : simpl never.

(** ** comments and processing instructions *)
Definition plain (s : bytes) : Prop := after (s2b "<!--") (skip s) = None /\ after (s2b "<?") (skip s) = None.
Lemma a_comments_plain s d : plain s -> a_comments s d = Some (skip s, d).
Proof.
  intros [H1 H2]. rewrite a_comments_eq. unfold a_comment. rewrite H1. rewrite !skip_skip, H2. destruct (p_header d); reflexivity.
Qed.
Lemma a_comments_skip s d : a_comments (skip s) d = a_comments s d.
Proof. rewrite (a_comments_eq s), (a_comments_eq (skip s)), skip_skip. reflexivity. Qed.
Lemma a_comments_blank w s d : blank w -> a_comments (w ++ s) d = a_comments s d.
Proof. intros H. rewrite <- a_comments_skip, skip_blank by assumption. apply a_comments_skip. Qed.
Lemma a_comments_comment c s d : is_comment c ->
  a_comments (s2b "<!--" ++ c ++ s2b "-->" ++ s) d = a_comments s (add_item d (IComment c)).
Proof.
  intros H. rewrite a_comments_eq. change (skip (s2b "<!--" ++ c ++ s2b "-->" ++ s)) with (s2b "<!--" ++ c ++ s2b "-->" ++ s).
  unfold a_comment at 1. rewrite after_app, until_comment by assumption. destruct c as [|c0 c]; [destruct H; contradiction|].
  set (d1 := add_item d _). rewrite (a_comments_eq s d1). unfold a_comment.
  destruct (if p_header d1 then after (s2b "<?") (skip s) else None) as [r|] eqn:E.
  - destruct (p_header d1) eqn:Hd; [|discriminate].
    replace (after (s2b "<!--") (skip s)) with (@None bytes)
      by (apply after_Some in E; rewrite E; reflexivity).
    rewrite Hd, skip_skip, E. reflexivity.
  - rewrite (a_comments_eq (skip s) d1). unfold a_comment. rewrite skip_skip. reflexivity.
Qed.
Lemma target_not_xml n : is_target n -> bytes_eqb (map to_lower n) (s2b "xml") = false.
Proof.
  intros [_ H]. apply bytes_eqb_neq. intros E. apply H.
  destruct n as [|x [|m [|l [|]]]]; try discriminate. injection E as E1 E2 E3.
  exists x, m, l. split; [reflexivity|].
  split; [|split]; apply same_letter_ok; assumption.
Qed.
Lemma a_pi_ok' t n c s d : pi_text t n c -> a_pi (t ++ s) d = Some (s, add_pi d (Pi n c)).
Proof.
  intros H. destruct H as [n Ht|n w c Ht Hw Hc]; unfold a_pi; rewrite <- !app_assoc, after_app.
  - destruct Ht as [[Hne Hn] X]. rewrite until_target_bare by assumption. rewrite (cstr_id n) by (apply name_nul; assumption).
    rewrite target_not_xml by (split; [split|]; assumption). reflexivity.
  - destruct Ht as [[Hne Hn] X]. rewrite until_target by assumption. rewrite (cstr_id n) by (apply name_nul; assumption).
    rewrite target_not_xml by (split; [split|]; assumption). change ((2 =? 0) || (2 =? 1)) with false. change (2 =? 2) with true. cbv iota.
    rewrite until_pi_content by assumption. rewrite (cstr_id c) by apply Hc. reflexivity.
Qed.
Lemma pi_text_start t n c : pi_text t n c -> exists z, t = s2b "<?" ++ z.
Proof. destruct 1; eauto. Qed.
Lemma a_comments_pi t n c s d : p_header d = true -> pi_text t n c ->
  a_comments (t ++ s) d = a_comments s (add_pi d (Pi n c)).
Proof.
  intros Hd H. pose proof (a_pi_ok' _ _ _ s d H) as P. destruct (pi_text_start _ _ _ H) as [z E].
  assert (Sk : skip (t ++ s) = t ++ s) by (rewrite E; reflexivity).
  rewrite a_comments_eq. unfold a_comment. rewrite Sk.
  replace (after (s2b "<!--") (t ++ s)) with (@None bytes) by (rewrite E; reflexivity). rewrite Hd, Sk.
  replace (after (s2b "<?") (t ++ s)) with (Some (z ++ s)) by (rewrite E; reflexivity). rewrite P. reflexivity.
Qed.

(** ** states while parsing *)
Definition fine (d : pdoc) : Prop := p_header d = true /\ Forall (eq false) (p_preserve d).
Definition alike (d d' : pdoc) : Prop :=
  p_root d' = p_root d /\ p_encoding d' = p_encoding d /\ p_standalone d' = p_standalone d /\ p_pis d' = p_pis d.
Lemma alike_refl d : alike d d.
Proof. repeat split. Qed.
Lemma alike_trans d e f : alike d e -> alike e f -> alike d f.
Proof. unfold alike. intuition congruence. Qed.
Lemma fine_hd d : fine d -> hd false (p_preserve d) = false.
Proof. intros [_ H]. destruct (p_preserve d); [reflexivity|]. apply Forall_inv in H. symmetry. exact H. Qed.

Lemma after_ne x p c z : x <> c -> after (x :: p) (c :: z) = None.
Proof. intros H. cbn [after]. destruct (Ascii.eqb_spec x c); [contradiction|reflexivity]. Qed.
(** ** attributes *)
Definition A_attrs (s : bytes) (d : pdoc) (a : attrs) := a_attrs (S (length s)) s d a.
Lemma A_attrs_eq s d a : A_attrs s d a =
    match after (s2b "/>") s with
    | Some s => Some (s, d, a, true)
    | None =>
      match after (s2b ">") s with
      | Some s => Some (s, d, a, false)
      | None =>
        match until [s2b "="] (skip s) with
        | None => None
        | Some (t, _, _, s) =>
          match cstr t with
          | [] => None
          | name =>
            match a_quote s with
            | None => None
            | Some (q, s) =>
              let '(value, s) := a_value q s in
              if a_has a name then None
              else match a_preserve (p_preserve d) name value with
                   | None => None
                   | Some l => A_attrs (skip s) (with_preserve d l) (a_set a name value)
                   end
            end
          end
        end
      end
    end.
Proof.
  unfold A_attrs at 1. cbn [a_attrs]. destruct (after (s2b "/>") s); [reflexivity|]. destruct (after (s2b ">") s); [reflexivity|].
  pose proof (skip_len s). destruct (until [s2b "="] (skip s)) as [[[[t it] x] s1]|] eqn:U; [|reflexivity].
  pose proof (until_shorter [s2b "="] (skip s) _ _ _ _ ltac:(gc) U).
  destruct (cstr t); [reflexivity|]. destruct (a_quote s1) as [[q s2]|] eqn:Q; [|reflexivity].
  destruct (a_quote_shorter _ _ _ Q) as [L2 Hq]. destruct (a_value q s2) as [v s3] eqn:V.
  pose proof (a_value_len _ _ _ _ Hq V). destruct (a_has a _); [reflexivity|]. destruct (a_preserve _ _ _); [|reflexivity].
  pose proof (skip_len s3). apply (a_attrs_fuel (length (skip s3))); lia.
Qed.

(** the end of a start tag *)
Definition tag_end (e : bytes) (b : bool) : Prop := (e = s2b "/>" /\ b = true) \/ (e = s2b ">" /\ b = false).
Lemma attrs_end w e b s d a : blank w -> tag_end e b -> A_attrs (skip (w ++ e ++ s)) d a = Some (s, d, a, b).
Proof.
  intros Hw [[-> ->]|[-> ->]]; rewrite skip_blank by assumption;
    [change (skip (s2b "/>" ++ s)) with (s2b "/>" ++ s)|change (skip (s2b ">" ++ s)) with (s2b ">" ++ s)];
    rewrite A_attrs_eq; reflexivity.
Qed.
Lemma is_name_start k : is_name k -> exists c r, k = c :: r /\ name_char c = true.
Proof. intros [H1 H2]. destruct k as [|c r]; [contradiction|]. cbn in H2. apply andb_true_iff in H2. exists c, r. tauto. Qed.
Lemma attrs_ok t ats : attrs_text t ats -> forall w e b s d a m, blank w -> tag_end e b -> fine d -> arep a m ->
  (forall k, In k (map fst ats) -> a_find m k = None) ->
  exists d' a' m', A_attrs (skip (t ++ w ++ e ++ s)) d a = Some (s, d', a', b) /\ arep a' m' /\ Permutation m' (ats ++ m) /\
    fine d' /\ alike d d' /\ p_stack d' = p_stack d.
Proof.
  induction 1 as [|w0 k q v t l Hw0 Hne Hk Hx Hq Hv Hqv T IH Hin]; intros w e b s d a m Hw He Hd Ha Hm.
  - cbn [app]. exists d, a, m. rewrite attrs_end with (b := b) by assumption. split; [reflexivity|].
    split; [assumption|]. split; [reflexivity|]. split; [assumption|]. split; [apply alike_refl|reflexivity].
  - destruct (is_name_start _ Hk) as (c & kr & Ek & Hc). pose proof Hk as [Hk0 Hk1].
    assert (Nk : nul_free k) by (apply name_nul; assumption).
    rewrite <- !app_assoc. rewrite skip_blank by assumption.
    assert (Sk : forall z, skip (k ++ z) = k ++ z) by (intros z; rewrite Ek; apply skip_here, name_white, Hc).
    rewrite Sk, A_attrs_eq, Sk.
    assert (N1 : forall z, after (s2b "/>") (k ++ z) = None).
    { intros z. rewrite Ek. apply (after_ne "/" [">"%char]). intros <-. discriminate. }
    assert (N2 : forall z, after (s2b ">") (k ++ z) = None).
    { intros z. rewrite Ek. apply (after_ne ">" []). intros <-. discriminate. }
    rewrite N1, N2. change (str "=") with ["="%char]. change [s2b "="] with [["="%char]]. cbn [app].
    rewrite until_char by first [reflexivity | apply name_has; [reflexivity|assumption]].
    rewrite (cstr_id k) by assumption. subst k. cbv iota. set (k := c :: kr) in *.
    assert (Q : forall z, a_quote (q :: z) = Some (q, z)) by (intros z; destruct Hq as [->| ->]; reflexivity).
    rewrite Q. unfold a_value. rewrite until_char by (try assumption; destruct Hq as [->| ->]; reflexivity). rewrite (cstr_id v) by assumption.
    destruct (a_has_ok a m k Ha Nk) as [_ Hh]. rewrite Hh, (Hm k) by (left; reflexivity).
    unfold a_preserve. replace (bytes_eqb k (s2b "xml:space")) with false by (symmetry; apply bytes_eqb_neq; exact Hx).
    rewrite fine_hd by assumption.
    destruct (a_set_ok a m k (Some v) Ha Nk) as (bb & _ & Ha'). unfold a_add in Ha'. rewrite (Hm k) in Ha' by (left; reflexivity).
    destruct (IH w e b s (with_preserve d (false :: p_preserve d)) (a_set a k (Some v)) ((k, Some v) :: m) Hw He) as
      (d' & a' & m' & E & R & P & F & Al & St).
    + destruct Hd as [Hd1 Hd2]. split; [exact Hd1|]. cbn. constructor; [reflexivity|exact Hd2].
    + exact Ha'.
    + intros k' I. unfold a_find. cbn [find fst]. destruct (bytes_eqb k k') eqn:Ekk.
      * apply bytes_eqb_eq in Ekk. subst k'. contradiction.
      * apply Hm. right. exact I.
    + exists d', a', m'. split; [exact E|]. split; [exact R|]. split.
      { etransitivity; [exact P|]. apply Permutation_sym, (Permutation_middle l m (k, Some v)). }
      split; [exact F|]. split; [eapply alike_trans; [|exact Al]; repeat split|exact St].
Qed.

(** ** tags *)
Definition a_tag (s : bytes) (d : pdoc) : option (bytes * pdoc * attrs * bytes * bool) :=
  match until [s2b ">"; s2b " "] s with
  | None => None
  | Some (t, it, _, s) =>
    match cstr t with
    | [] => None
    | name =>
      if it =? 1 then
        match A_attrs (skip s) d no_attrs with
        | None => None
        | Some (s, d, a, e) => Some (s, d, a, name, e)
        end
      else if Ascii.eqb (last name NUL) "/" then Some (s, d, no_attrs, removelast name, true)
      else Some (s, d, no_attrs, name, false)
    end
  end.
Definition a_open (s : bytes) (d : pdoc) : option (bytes * pdoc * bool) :=
  match a_tag s d with
  | None => None
  | Some (s, d, a, name, e) =>
    if (e : bool) then Some (s, add_node d (Node name a []), true)
    else Some (s, with_stack d (Node name a [] :: p_stack d), false)
  end.
Lemma a_node_eq s d : a_node s d =
  match a_comments s d with
  | None => None
  | Some (s, d) =>
    match (match after (s2b "<") s with Some s => Some s | None => match s with [] => None | _ => Some s end end) with
    | None => None
    | Some s => a_open s d
    end
  end.
Proof.
  unfold a_node, a_open, a_tag. destruct (a_comments s d) as [[s1 d1]|]; [|reflexivity].
  destruct (match after (s2b "<") s1 with Some s => Some s | None => _ end) as [s2|]; [|reflexivity].
  destruct (until [s2b ">"; s2b " "] s2) as [[[[t it] x] s3]|]; [|reflexivity].
  destruct (cstr t); [reflexivity|]. unfold A_attrs. destruct (it =? 1); [|reflexivity].
  destruct (a_attrs _ (skip s3) d1 no_attrs) as [[[[? ?] ?] ?]|]; reflexivity.
Qed.

Lemma stop_tag_name c s : white c = false -> c <> ">"%char -> stop_at [s2b ">"; s2b " "] (c :: s) = None.
Proof.
  intros H N. unfold stop_at. change (existsb ws_chunk _) with true. cbn [andb]. rewrite is_ws_white, H. cbn [hit].
  change (ws_chunk (s2b ">")) with false. change (ws_chunk (s2b " ")) with true. cbv iota. change (s2b ">") with [">"%char]. cbn [after].
  destruct (Ascii.eqb_spec ">" c) as [<-|]; [congruence|reflexivity].
Qed.
Lemma until_tag_white n c s : forallb name_char n = true -> white c = true ->
  until [s2b ">"; s2b " "] (n ++ c :: s) = Some (n, 1, c :: s, s).
Proof.
  intros H Hc. rewrite (until_after _ n (c :: s) ([], 1, c :: s, s)).
  - rewrite app_nil_r. reflexivity.
  - intros a x b ->. pose proof (name_forall _ H a x b eq_refl) as Hx.
    apply stop_tag_name; [apply name_white, Hx|]. intros ->. discriminate.
  - rewrite (until_here _ _ 1 1); [reflexivity| |discriminate].
    unfold stop_at. change (existsb ws_chunk _) with true. cbn [andb]. rewrite is_ws_white, Hc. reflexivity.
Qed.
Lemma until_tag_end n s : (forall a x b, n = a ++ x :: b -> white x = false /\ x <> ">"%char) ->
  until [s2b ">"; s2b " "] (n ++ ">"%char :: s) = Some (n, 0, ">"%char :: s, s).
Proof.
  intros H. rewrite (until_after _ n (">"%char :: s) ([], 0, ">"%char :: s, s)).
  - rewrite app_nil_r. reflexivity.
  - intros a x b ->. destruct (H a x b eq_refl). apply stop_tag_name; assumption.
  - rewrite (until_here _ _ 0 1); [reflexivity|reflexivity|discriminate].
Qed.
Lemma attrs_text_start t ats : attrs_text t ats -> t = [] /\ ats = [] \/ exists c r, t = c :: r /\ white c = true.
Proof.
  destruct 1 as [|w k q v t l Hw Hne]; [auto|]. right. destruct w as [|c w]; [contradiction|].
  unfold blank in Hw. cbn in Hw. apply andb_true_iff in Hw. exists c. eexists. split; [reflexivity|]. tauto.
Qed.
Lemma name_last n : is_name n -> name_char (last n NUL) = true.
Proof.
  intros [H1 H2]. destruct (exists_last H1) as (l & c & ->). rewrite last_last. eapply name_forall; [exact H2|reflexivity].
Qed.

Lemma attrs_text_nodup t ats : attrs_text t ats -> NoDup (map fst ats).
Proof. induction 1; cbn; constructor; auto. Qed.

(** ** a start tag *)
Lemma tag_ok name t ats w e b s d : is_name name -> attrs_text t ats -> blank w -> tag_end e b -> fine d ->
  exists d' a m, a_tag (name ++ t ++ w ++ e ++ s) d = Some (s, d', a, name, b) /\ arep a m /\ Permutation m ats /\
    fine d' /\ alike d d' /\ p_stack d' = p_stack d.
Proof.
  intros Hn T Hw He Hd. pose proof Hn as [Hne Hch]. assert (Nn : nul_free name) by (apply name_nul; assumption).
  assert (Attr : forall c z, white c = true -> t ++ w ++ e ++ s = c :: z ->
    exists d' a m, a_tag (name ++ t ++ w ++ e ++ s) d = Some (s, d', a, name, b) /\ arep a m /\ Permutation m ats /\
    fine d' /\ alike d d' /\ p_stack d' = p_stack d).
  { intros c z Hc E. destruct (attrs_ok t ats T w e b s d no_attrs [] Hw He Hd arep_none ltac:(reflexivity))
      as (d' & a' & m' & EA & R & P & F & Al & St).
    exists d', a', m'. split; [|rewrite app_nil_r in P; auto 10].
    unfold a_tag. rewrite E in EA |- *. rewrite until_tag_white by assumption. rewrite (cstr_id name) by assumption.
    destruct name; [contradiction|]. change (1 =? 1) with true. cbv iota.
    assert (Sk : skip (c :: z) = skip z) by (cbn [skip]; rewrite is_ws_white, Hc; reflexivity).
    rewrite <- Sk, EA. reflexivity. }
  destruct (attrs_text_start _ _ T) as [[-> ->]|(c & r & -> & Hc)]; [|eapply Attr; [exact Hc|reflexivity]].
  destruct w as [|c w].
  - clear Attr. cbn [app]. exists d, no_attrs, []. split; [|repeat split; try apply arep_none; try apply Hd; constructor].
    unfold a_tag. destruct He as [[-> ->]|[-> ->]].
    + change (name ++ s2b "/>" ++ s) with (name ++ ["/"%char] ++ ">"%char :: s). rewrite app_assoc.
      rewrite until_tag_end.
      * rewrite (cstr_id (name ++ ["/"%char])) by (apply nul_free_app; split; [assumption|nf]).
        destruct (name ++ ["/"%char]) eqn:E; [destruct name; discriminate|]. rewrite <- E.
        change (0 =? 1) with false. cbv iota. rewrite last_last, removelast_last. reflexivity.
      * intros a x b' E. destruct (list_eq_dec ascii_dec b' []) as [->|Nb].
        { apply app_inj_tail in E. destruct E as [_ <-]. split; [reflexivity|discriminate]. }
        destruct (exists_last Nb) as (b'' & y & ->). rewrite app_comm_cons, app_assoc in E. apply app_inj_tail in E.
        destruct E as [E _]. pose proof (name_forall _ Hch _ _ _ E) as Hx. split; [apply name_white, Hx|]. intros ->. discriminate.
    + change (s2b ">" ++ s) with (">"%char :: s). rewrite until_tag_end.
      * rewrite (cstr_id name) by assumption. pose proof (name_last _ Hn) as HL.
        destruct name as [|c0 n0] eqn:En; [contradiction|]. rewrite <- En in *.
        change (0 =? 1) with false. cbv iota.
        destruct (Ascii.eqb_spec (last name NUL) "/") as [E|]; [rewrite E in HL; discriminate|]. reflexivity.
      * intros a x b' E. pose proof (name_forall _ Hch _ _ _ E) as Hx. split; [apply name_white, Hx|]. intros ->. discriminate.
  - unfold blank in Hw. eapply Attr; [|reflexivity]. cbn in Hw. apply andb_true_iff in Hw. tauto.
Qed.
