(** Every accepted text is an element of the wider grammar, with its tree. *)
From Coq Require Import Permutation.
From Verif Require Import Prelude StrModel StrSpec StrProofs EscProofs StrProofs2 StrProofs3 AttrModel AttrSpec AttrProofs
  TreeModel StreamModel StreamProofs ParseModel ParseProofs ParseProofs2 XmlSpec GramProofs GramProofs2 GramProofs3 GramProofs5 SoundSpec.
Open Scope Z_scope.
Local Arguments Z.of_nat : simpl never.
Local Arguments Z.to_nat : simpl never.
Local Arguments Z.add : simpl never.
Local Arguments Z.sub : simpl never.
Local Arguments Z.eqb : simpl never.
Local Arguments Z.ltb : simpl never.
Local Arguments Z.leb : simpl never.

(** ** what [until] found *)
Lemma until_inv chunks s t it a b : until chunks s = Some (t, it, a, b) ->
  s = t ++ a /\ a <> [] /\ (exists n, stop_at chunks a = Some (it, n) /\ b = skipn n a) /\
  (forall x c y, t = x ++ c :: y -> stop_at chunks ((c :: y) ++ a) = None).
Proof.
  revert t it a b. induction s as [|c s IH]; intros t it a b H; [discriminate|]. cbn [until] in H.
  destruct (stop_at chunks (c :: s)) as [[i n]|] eqn:E.
  - injection H as <- <- <- <-. split; [reflexivity|]. split; [discriminate|]. split; [exists n; auto|]. intros [|? ?] ? ? ?; discriminate.
  - destruct (until chunks s) as [[[[t' i'] a'] b']|]; [|discriminate]. injection H as <- <- <- <-.
    destruct (IH _ _ _ _ eq_refl) as (E1 & E2 & E3 & E4). split; [cbn; f_equal; exact E1|]. split; [exact E2|]. split; [exact E3|].
    intros [|x0 x] c0 y Ht; cbn [app] in Ht; injection Ht as -> Ht; [subst t'; rewrite <- app_comm_cons, <- E1; exact E|]. eapply E4, Ht.
Qed.
Lemma hit_one c s : ws_chunk c = false -> forall it n, hit [c] s 0 = Some (it, n) -> s = c ++ skipn n s.
Proof.
  intros W it n. cbn [hit]. rewrite W. destruct (after c s) as [r|] eqn:E; [|discriminate]. intros H. injection H as <- <-.
  apply after_Some in E. rewrite E at 2. rewrite skipn_app, skipn_all, Nat.sub_diag. exact E.
Qed.
Lemma hit_none chunks s : forall i, hit chunks s i = None -> forall c, In c chunks -> ws_chunk c = false -> after c s = None.
Proof.
  induction chunks as [|c0 chunks IH]; intros i H c I W; [destruct I|]. cbn [hit] in H. destruct I as [->|I].
  - rewrite W in H. destruct (after c s); [discriminate|reflexivity].
  - destruct (ws_chunk c0); [eapply IH; eassumption|]. destruct (after c0 s); [discriminate|]. eapply IH; eassumption.
Qed.
Lemma stop_none chunks s : stop_at chunks s = None -> forall c, In c chunks -> ws_chunk c = false -> after c s = None.
Proof. unfold stop_at. destruct (_ && _); [discriminate|]. apply hit_none. Qed.
Lemma stop_none_ws chunks c s : stop_at chunks (c :: s) = None -> existsb ws_chunk chunks = true -> white c = false.
Proof. unfold stop_at. intros H E. rewrite E in H. cbn [andb] in H. rewrite is_ws_white in H. destruct (white c); [discriminate|reflexivity]. Qed.
Lemma until_free chunks s t it a b c : until chunks s = Some (t, it, a, b) -> In c chunks -> ws_chunk c = false -> c <> [] -> ~ occurs c t.
Proof.
  intros H I W N (x & y & Et). destruct (until_inv _ _ _ _ _ _ H) as (_ & _ & _ & E4). destruct c as [|c0 c]; [contradiction|].
  specialize (E4 x c0 (c ++ y) Et). pose proof (stop_none _ _ E4 _ I W) as A.
  replace ((c0 :: c ++ y) ++ a) with ((c0 :: c) ++ y ++ a) in A by (cbn; rewrite <- app_assoc; reflexivity).
  rewrite after_app in A. discriminate.
Qed.
Lemma until_no_ws chunks s t it a b : until chunks s = Some (t, it, a, b) -> existsb ws_chunk chunks = true ->
  forallb (fun c => negb (white c)) t = true.
Proof.
  intros H W. destruct (until_inv _ _ _ _ _ _ H) as (_ & _ & _ & E4). apply forallb_forall. intros c I. apply in_split in I as (x & y & ->).
  specialize (E4 x c y eq_refl). rewrite (stop_none_ws _ _ _ E4 W). reflexivity.
Qed.
(** one terminator that is not white space *)
Lemma until_one c s t it a b : ws_chunk c = false -> c <> [] -> until [c] s = Some (t, it, a, b) ->
  s = t ++ c ++ b /\ a = c ++ b /\ ~ occurs c t.
Proof.
  intros W N H. destruct (until_inv _ _ _ _ _ _ H) as (E1 & E2 & (n & E3 & ->) & E4).
  unfold stop_at in E3. cbn [existsb] in E3. rewrite W in E3. cbn [orb andb] in E3.
  pose proof (hit_one c a W _ _ E3) as Ha. split; [rewrite <- Ha; exact E1|]. split; [exact Ha|].
  eapply until_free; [exact H|left; reflexivity|exact W|exact N].
Qed.
Lemma occurs_has c t : ~ occurs [c] t -> has c t = false.
Proof.
  intros H. unfold has. destruct (existsb (Ascii.eqb c) t) eqn:E; [|reflexivity]. exfalso. apply existsb_exists in E as (x & I & Ex).
  apply Ascii.eqb_eq in Ex. subst x. apply in_split in I as (a & b & ->). apply H. exists a, b. reflexivity.
Qed.
Lemma until_char_inv c s t it a b : ws_chunk [c] = false -> until [[c]] s = Some (t, it, a, b) -> s = t ++ c :: b /\ a = c :: b /\ has c t = false.
Proof.
  intros W H. destruct (until_one [c] s t it a b W ltac:(discriminate) H) as (H1 & H2 & H3).
  split; [exact H1|]. split; [exact H2|]. apply occurs_has, H3.
Qed.
Lemma until_tag s t it a b : until [s2b ">"; s2b " "] s = Some (t, it, a, b) ->
  forallb (fun c => negb (white c)) t = true /\ has ">" t = false /\
  ((it = 0 /\ s = t ++ s2b ">" ++ b) \/ (it = 1 /\ exists w, white w = true /\ s = t ++ w :: b)).
Proof.
  intros H. split; [eapply until_no_ws; [exact H|reflexivity]|].
  split; [apply occurs_has; eapply (until_free _ _ _ _ _ _ (s2b ">")); [exact H|left; reflexivity|reflexivity|discriminate]|].
  destruct (until_inv _ _ _ _ _ _ H) as (E1 & E2 & (n & E3 & ->) & _). unfold stop_at in E3.
  change (existsb ws_chunk _) with true in E3. cbn [andb] in E3. destruct a as [|c a]; [contradiction|]. rewrite is_ws_white in E3.
  destruct (white c) eqn:Wc.
  - injection E3 as <- <-. right. split; [reflexivity|]. exists c. auto.
  - left. cbn [hit] in E3. change (ws_chunk (s2b ">")) with false in E3. change (ws_chunk (s2b " ")) with true in E3. cbv iota in E3.
    destruct (after (s2b ">") (c :: a)) as [r|] eqn:A; [|discriminate]. apply after_Some in A. injection E3 as <- <-.
    split; [reflexivity|]. rewrite E1, A. reflexivity.
Qed.
Lemma until_pi s t it a b : until [s2b " ?>"; s2b "?>"; s2b " "] s = Some (t, it, a, b) ->
  ~ occurs (s2b "?>") t /\ ((it = 1 /\ s = t ++ s2b "?>" ++ b) \/ (it = 2 /\ exists w, white w = true /\ s = t ++ w :: b)).
Proof.
  intros H. split; [eapply (until_free _ _ _ _ _ _ (s2b "?>")); [exact H|right; left; reflexivity|reflexivity|discriminate]|].
  destruct (until_inv _ _ _ _ _ _ H) as (E1 & E2 & (n & E3 & ->) & _). unfold stop_at in E3.
  change (existsb ws_chunk _) with true in E3. cbn [andb] in E3. destruct a as [|c a]; [contradiction|]. rewrite is_ws_white in E3.
  destruct (white c) eqn:Wc.
  - injection E3 as <- <-. right. split; [reflexivity|]. exists c. auto.
  - left. cbn [hit] in E3. change (ws_chunk (s2b " ?>")) with false in E3. change (ws_chunk (s2b "?>")) with false in E3. change (ws_chunk (s2b " ")) with true in E3. cbv iota in E3.
    assert (N : after (s2b " ?>") (c :: a) = None) by (apply (after_ne " " (s2b "?>")); intros <-; discriminate). rewrite N in E3.
    destruct (after (s2b "?>") (c :: a)) as [r|] eqn:A; [|discriminate]. apply after_Some in A. injection E3 as <- <-.
    split; [reflexivity|]. rewrite E1, A. reflexivity.
Qed.
Lemma until_pi_end s t it a b : until [s2b " ?>"; s2b "?>"] s = Some (t, it, a, b) ->
  ~ occurs (s2b "?>") t /\ exists e, (e = [] \/ e = [sp]) /\ s = t ++ e ++ s2b "?>" ++ b.
Proof.
  intros H. split; [eapply (until_free _ _ _ _ _ _ (s2b "?>")); [exact H|right; left; reflexivity|reflexivity|discriminate]|].
  destruct (until_inv _ _ _ _ _ _ H) as (E1 & E2 & (n & E3 & ->) & _). unfold stop_at in E3.
  change (existsb ws_chunk _) with false in E3. cbn [andb] in E3.
  cbn [hit] in E3. change (ws_chunk (s2b " ?>")) with false in E3. change (ws_chunk (s2b "?>")) with false in E3. cbv iota in E3.
  destruct (after (s2b " ?>") a) as [r|] eqn:A.
  - apply after_Some in A. injection E3 as <- <-. exists [sp]. split; [auto|]. rewrite E1, A. reflexivity.
  - destruct (after (s2b "?>") a) as [r|] eqn:A'; [|discriminate]. apply after_Some in A'. injection E3 as <- <-.
    exists []. split; [auto|]. rewrite E1, A'. reflexivity.
Qed.

(** ** pieces *)
Definition node_add (n : node) (l : list item) : node := let '(Node s a m) := n in Node s a (m ++ l).
Lemma node_add_nil n : node_add n [] = n.
Proof. destruct n. cbn. rewrite app_nil_r. reflexivity. Qed.
Lemma node_add_app n l m : node_add (node_add n l) m = node_add n (l ++ m).
Proof. destruct n. cbn. rewrite app_assoc. reflexivity. Qed.
Lemma add_to_eq n i : add_to n i = node_add n [i].
Proof. destruct n. reflexivity. Qed.
Definition stack_add (s : list node) (l : list item) : list node := match s with [] => [] | n :: r => node_add n l :: r end.
Lemma stack_add_nil s : stack_add s [] = s.
Proof. destruct s; cbn; [|rewrite node_add_nil]; reflexivity. Qed.
Lemma stack_add_app s l m : stack_add (stack_add s l) m = stack_add s (l ++ m).
Proof. destruct s; cbn; [|rewrite node_add_app]; reflexivity. Qed.
Lemma add_item_stack d i : p_stack (add_item d i) = stack_add (p_stack d) [i] /\ p_root (add_item d i) = p_root d.
Proof. unfold add_item. destruct (p_stack d) eqn:E; cbn; rewrite ?E, ?add_to_eq; auto. Qed.
Lemma add_pi_stack d p : p_stack (add_pi d p) = stack_add (p_stack d) [IPi p] /\ p_root (add_pi d p) = p_root d.
Proof. unfold add_pi. destruct (p_stack d) eqn:E; [cbn; rewrite E; auto|]. rewrite <- E. apply add_item_stack. Qed.

Lemma skip_blank_split s : exists w, blank w /\ s = w ++ skip s.
Proof.
  induction s as [|c s (w & B & IH)]; [exists []; split; reflexivity|]. cbn [skip]. destruct (is_ws c) eqn:E.
  - exists (c :: w). split; [unfold blank; cbn [forallb]; rewrite <- is_ws_white, E; exact B|cbn; f_equal; exact IH].
  - exists []. split; reflexivity.
Qed.
Lemma misc_loose_app s l t m : misc_loose s l -> misc_loose t m -> misc_loose (s ++ t) (l ++ m).
Proof.
  intros H K. induction H; cbn [app]; [exact K| | |].
  - rewrite <- app_assoc. constructor; assumption.
  - rewrite <- !app_assoc. cbn [app]. constructor; assumption.
  - rewrite <- app_assoc. constructor; assumption.
Qed.
Lemma a_pi_sound s r d d' : a_pi s d = Some (r, d') -> after (s2b "<?") s <> None ->
  exists t p, s = t ++ r /\ pi_loose t p /\ d' = add_pi d p.
Proof.
  unfold a_pi. destruct (after (s2b "<?") s) as [s1|] eqn:A; [|contradiction]. intros H _. apply after_Some in A. subst s.
  destruct (until _ s1) as [[[[t it] x] s2]|] eqn:U; [|discriminate]. destruct (until_pi _ _ _ _ _ U) as [N [[-> E]|(-> & w & Hw & E)]];
    destruct (bytes_eqb _ (s2b "xml")); try discriminate.
  - change ((1 =? 0) || (1 =? 1)) with true in H. cbv iota in H. injection H as <- <-.
    exists (s2b "<?" ++ t ++ s2b "?>"), (Pi (cstr t) None). split; [rewrite E, <- !app_assoc; reflexivity|]. split; [constructor; exact N|reflexivity].
  - change ((2 =? 0) || (2 =? 1)) with false in H. change (2 =? 2) with true in H. cbv iota in H.
    destruct (until _ s2) as [[[[c it2] x2] s3]|] eqn:U2; [|discriminate]. injection H as <- <-.
    destruct (until_pi_end _ _ _ _ _ U2) as (N2 & e & He & E2).
    exists (s2b "<?" ++ t ++ [w] ++ c ++ e ++ s2b "?>"), (Pi (cstr t) (Some (cstr c))).
    split; [rewrite E, E2; change (w :: c ++ e ++ s2b "?>" ++ s3) with ([w] ++ c ++ e ++ s2b "?>" ++ s3); rewrite <- !app_assoc; reflexivity|]. split; [constructor; assumption|reflexivity].
Qed.
Lemma a_comment_sound s r d d' found : a_comment s d = Some (r, d', found) ->
  (found = false /\ r = s /\ d' = d) \/
  (found = true /\ exists c, is_comment c /\ s = s2b "<!--" ++ c ++ s2b "-->" ++ r /\ d' = add_item d (IComment c)).
Proof.
  unfold a_comment. destruct (after (s2b "<!--") s) as [s1|] eqn:A; [|intros H; injection H as <- <- <-; auto].
  destruct (until _ s1) as [[[[[|c t] it] x] s2]|] eqn:U; try discriminate. intros H. injection H as <- <- <-. right. split; [reflexivity|].
  apply after_Some in A. subst s. destruct (until_one (s2b "-->") _ _ _ _ _ eq_refl ltac:(discriminate) U) as (E & _ & N).
  exists (c :: t). split; [split; [discriminate|exact N]|]. split; [rewrite E; reflexivity|reflexivity].
Qed.
Lemma comments_sound : forall f s d r d', a_comments_loop f s d = Some (r, d') ->
  exists m l, s = m ++ r /\ misc_loose m l /\ p_stack d' = stack_add (p_stack d) l /\ p_root d' = p_root d.
Proof.
  induction f as [|f IH]; intros s d r d' H; [discriminate|]. cbn [a_comments_loop] in H.
  destruct (skip_blank_split s) as (w & Bw & Ew).
  destruct (a_comment (skip s) d) as [[[s1 d1] found]|] eqn:C; [|discriminate].
  assert (C' : exists m l, s = m ++ s1 /\ misc_loose m l /\ p_stack d1 = stack_add (p_stack d) l /\ p_root d1 = p_root d).
  { destruct (a_comment_sound _ _ _ _ _ C) as [(_ & -> & ->)|(_ & c & Hc & Es & ->)].
    - exists w, []. split; [exact Ew|]. rewrite stack_add_nil. split; [|auto]. rewrite <- (app_nil_r w). constructor; [exact Bw|constructor].
    - exists (w ++ s2b "<!--" ++ c ++ s2b "-->"), [IComment c]. split; [rewrite Ew, Es, <- !app_assoc; reflexivity|].
      split; [|apply add_item_stack]. apply misc_loose_blank; [exact Bw|]. rewrite <- (app_nil_r (s2b "-->")). apply misc_loose_comment; [exact Hc|constructor]. }
  clear C. destruct C' as (m1 & l1 & E1 & M1 & S1 & R1).
  destruct (skip_blank_split s1) as (w1 & Bw1 & Ew1).
  destruct (if p_header d1 then after (s2b "<?") (skip s1) else None) as [z|] eqn:A.
  - destruct (a_pi (skip s1) d1) as [[s2 d2]|] eqn:P; [|discriminate].
    destruct (a_pi_sound _ _ _ _ P) as (t & p & E2 & Pt & ->). { destruct (p_header d1); [rewrite A; discriminate|discriminate]. }
    destruct (IH _ _ _ _ H) as (m3 & l3 & E3 & M3 & S3 & R3). destruct (add_pi_stack d1 p) as [S2 R2].
    exists (m1 ++ w1 ++ t ++ m3), (l1 ++ IPi p :: l3). split; [rewrite E1, Ew1, E2, E3, <- !app_assoc; reflexivity|].
    split; [apply misc_loose_app; [exact M1|]; constructor; [exact Bw1|]; constructor; assumption|].
    split; [|congruence]. rewrite S3, S2, S1, !stack_add_app, <- ?app_assoc. reflexivity.
  - destruct found.
    + destruct (IH _ _ _ _ H) as (m3 & l3 & E3 & M3 & S3 & R3).
      exists (m1 ++ w1 ++ m3), (l1 ++ l3). split; [rewrite E1, Ew1, E3, <- !app_assoc; reflexivity|].
      split; [apply misc_loose_app; [exact M1|]; constructor; assumption|]. split; [|congruence]. rewrite S3, S1, stack_add_app. reflexivity.
    + injection H as <- <-. exists (m1 ++ w1), l1. split; [rewrite E1 at 1; rewrite Ew1 at 1; rewrite <- app_assoc; reflexivity|].
      split; [|auto]. rewrite <- (app_nil_r l1). apply misc_loose_app; [exact M1|]. rewrite <- (app_nil_r w1). constructor; [exact Bw1|constructor].
Qed.

(** ** tags *)
Lemma a_quote_inv s q r : a_quote s = Some (q, r) -> quote q /\ s = q :: r.
Proof.
  unfold a_quote. destruct (after ["034"%char] s) as [s1|] eqn:A.
  - apply after_Some in A. intros H. injection H as <- <-. split; [right; reflexivity|exact A].
  - destruct (after ["039"%char] s) as [s1|] eqn:A'; [|discriminate]. apply after_Some in A'. intros H. injection H as <- <-.
    split; [left; reflexivity|exact A'].
Qed.
Lemma until_none c s : ws_chunk [c] = false -> until [[c]] s = None -> has c s = false.
Proof.
  intros W. induction s as [|x s IH]; [reflexivity|]. cbn [until]. unfold stop_at. cbn [existsb]. rewrite W. cbn [orb andb hit]. rewrite W. cbn [after].
  destruct (Ascii.eqb_spec c x); [discriminate|]. intros H. unfold has in *. cbn [existsb]. apply Ascii.eqb_neq in n. rewrite n. cbn [orb].
  destruct (until [[c]] s) as [[[[? ?] ?] ?]|]; [discriminate|]. apply IH. reflexivity.
Qed.
Lemma quote_ws q : quote q -> ws_chunk [q] = false.
Proof. intros [->| ->]; reflexivity. Qed.

Lemma attrs_loose_blank w t l : blank w -> attrs_loose t l -> attrs_loose (w ++ t) l.
Proof.
  intros B H. inversion H; subst; [constructor; apply GramProofs4.blank_app; assumption| |]; rewrite app_assoc; constructor; try assumption; apply GramProofs4.blank_app; assumption.
Qed.
Lemma attrs_sound : forall f s d a r d' a' e m, arep a m -> a_attrs f s d a = Some (r, d', a', e) ->
  exists t ats en m', s = t ++ en ++ r /\ attrs_loose t ats /\ ((en = str ">" /\ e = false) \/ (en = str "/>" /\ e = true)) /\
    arep a' m' /\ Permutation m' (ats ++ m) /\ p_stack d' = p_stack d /\ p_root d' = p_root d.
Proof.
  induction f as [|f IH]; intros s d a r d' a' e m R H; [discriminate|]. cbn [a_attrs] in H.
  destruct (after (s2b "/>") s) as [s1|] eqn:A1.
  { injection H as <- <- <- <-. apply after_Some in A1. exists [], [], (str "/>"), m. split; [exact A1|]. split; [constructor; reflexivity|]. auto 10. }
  destruct (after (s2b ">") s) as [s1|] eqn:A2.
  { injection H as <- <- <- <-. apply after_Some in A2. exists [], [], (str ">"), m. split; [exact A2|]. split; [constructor; reflexivity|]. auto 10. }
  clear A1 A2. destruct (skip_blank_split s) as (w & Bw & Ew).
  destruct (until [s2b "="] (skip s)) as [[[[k it] x] s1]|] eqn:U; [|discriminate].
  destruct (until_char_inv "=" _ _ _ _ _ eq_refl U) as (E1 & _ & N1).
  destruct (cstr k) as [|k0 kr] eqn:Ek; [discriminate|]. 
  destruct (a_quote s1) as [[q s2]|] eqn:Q; [|discriminate]. destruct (a_quote_inv _ _ _ Q) as [Hq E2].
  destruct (a_value q s2) as [v s3] eqn:V. destruct (a_has a (k0 :: kr)) eqn:Hh; [discriminate|].
  destruct (a_preserve _ _ _) as [pl|]; [|discriminate]. destruct (skip_blank_split s3) as (w3 & Bw3 & Ew3).
  assert (Nk : nul_free (cstr k)) by apply cstr_nul_free. rewrite Ek in Nk.
  destruct (a_has_ok a m _ R Nk) as [_ Hf]. rewrite Hf in Hh. destruct (a_find m (k0 :: kr)) eqn:Fm; [discriminate|].
  destruct (a_set_ok a m (k0 :: kr) v R Nk) as (bb & _ & R'). unfold a_add in R'. rewrite Fm in R'.
  destruct (IH _ _ _ _ _ _ _ _ R' H) as (t & ats & en & m' & Es & L & En & Ra & Pm & Sk & Rt).
  assert (Ex : exists t', s = t' ++ en ++ r /\ attrs_loose t' ((k0 :: kr, v) :: ats)).
  { unfold a_value in V. destruct (until [[q]] s2) as [[[[v0 it0] x0] s4]|] eqn:Uv.
    - injection V as <- <-. destruct (until_char_inv q _ _ _ _ _ (quote_ws q Hq) Uv) as (E4 & _ & N4).
      exists (w ++ k ++ str "=" ++ [q] ++ v0 ++ [q] ++ (w3 ++ t)). split.
      + rewrite Ew, E1, E2, E4, Ew3, Es. rewrite <- !app_assoc. cbn [app]. unfold str, s2b; cbn [list_ascii_of_string app]. rewrite <- ?app_assoc. reflexivity.
      + rewrite <- Ek. constructor; try assumption; [rewrite Ek; discriminate|]. apply attrs_loose_blank; assumption.
    - injection V as <- <-. exists (w ++ k ++ str "=" ++ [q] ++ (w3 ++ t)).
      assert (Nq : has q s2 = false) by (apply until_none; [apply quote_ws, Hq|exact Uv]).
      split.
      + rewrite Ew, E1, E2, Ew3, Es. rewrite <- !app_assoc. reflexivity.
      + rewrite <- Ek. constructor; try assumption; [rewrite Ek; discriminate| |apply attrs_loose_blank; assumption].
        rewrite Ew3, Es, app_assoc, has_app in Nq. apply orb_false_iff in Nq. tauto. }
  destruct Ex as (t' & Es' & L'). exists t', ((k0 :: kr, v) :: ats), en, m'. split; [exact Es'|]. split; [exact L'|]. split; [exact En|]. split; [exact Ra|].
  split; [|auto]. etransitivity; [exact Pm|]. apply Permutation_sym, (Permutation_middle ats m (k0 :: kr, v)).
Qed.
Lemma attrs_of_rep a m ats : arep a m -> Permutation m ats -> attrs_of a ats.
Proof.
  intros R P. destruct (enumerate_ok a m R) as (order & Po & F & _). exists order. rewrite (F (fun _ _ => false)).
  split; [f_equal; clear; induction order as [|[k v] o IH]; [reflexivity|]; cbn [HashSpec.take_until]; f_equal; exact IH|].
  split; [etransitivity; eassumption|]. eapply Permutation_NoDup; [apply Permutation_map; eassumption|]. eapply arep_nodup; eassumption.
Qed.
Lemma tag_sound s d r d' a name e : a_tag s d = Some (r, d', a, name, e) ->
  exists o ats, s = o ++ r /\ tag_loose o name ats e /\ attrs_of a ats /\ p_stack d' = p_stack d /\ p_root d' = p_root d.
Proof.
  unfold a_tag. destruct (until _ s) as [[[[t it] x] s1]|] eqn:U; [|discriminate].
  destruct (until_tag _ _ _ _ _ U) as (N1 & N2 & C). destruct (cstr t) as [|t0 tr] eqn:Et; [discriminate|].
  destruct C as [[-> E]|(-> & w & Hw & E)].
  - change (0 =? 1) with false. cbv iota. destruct (Ascii.eqb_spec (last (t0 :: tr) NUL) "/") as [L|L]; intros H; injection H as <- <- <- <- <-.
    + exists (t ++ str ">"), []. split; [rewrite E, <- app_assoc; reflexivity|]. split; [|split; [eapply attrs_of_rep; [apply arep_none|constructor]|auto]].
      apply tag_loose_slash; try assumption. rewrite Et. rewrite (app_removelast_last NUL) at 1 by discriminate. rewrite L. reflexivity.
    + exists (t ++ str ">"), []. split; [rewrite E, <- app_assoc; reflexivity|]. split; [|split; [eapply attrs_of_rep; [apply arep_none|constructor]|auto]].
      rewrite <- Et. apply tag_loose_plain; try assumption; rewrite Et; [discriminate|exact L].
  - change (1 =? 1) with true. cbv iota. destruct (A_attrs (skip s1) d no_attrs) as [[[[s2 d2] a2] e2]|] eqn:A; [|discriminate].
    intros H; injection H as <- <- <- <- <-. destruct (attrs_sound _ _ _ _ _ _ _ _ _ arep_none A) as (t' & ats & en & m' & Es & L & En & Ra & Pm & Sk & Rt).
    rewrite app_nil_r in Pm. destruct (skip_blank_split s1) as (w1 & Bw1 & Ew1).
    exists (t ++ [w] ++ (w1 ++ t') ++ en), ats. split; [rewrite E, Ew1, Es; rewrite <- !app_assoc; reflexivity|].
    split; [|split; [eapply attrs_of_rep; eassumption|auto]]. rewrite <- Et. apply tag_loose_attrs; try assumption; [rewrite Et; discriminate|].
    apply attrs_loose_blank; assumption.
Qed.
Lemma tag_name o name ats b : tag_loose o name ats b -> nul_free name.
Proof.
  intros H. inversion H; subst; try apply cstr_nul_free. intros I. apply (cstr_nul_free t). rewrite H2. apply in_or_app. left. exact I.
Qed.

(** ** contents *)
Scheme elem_ind2 := Induction for elem_loose Sort Prop with body_ind2 := Induction for body_loose Sort Prop.
Lemma body_loose_app s l t m : body_loose s l -> body_loose t m -> body_loose (s ++ t) (l ++ m).
Proof.
  intros H K. induction H; cbn [app]; [exact K| | | |]; rewrite <- ?app_assoc; cbn [app].
  - constructor; assumption.
  - constructor; assumption.
  - change (body_loose (str "<![CDATA[" ++ s ++ str "]]>" ++ (t0 ++ t)) (ICdata (cstr s) :: m0 ++ m)). constructor; assumption.
  - change (body_loose (str "<" ++ s ++ b ++ e ++ (t0 ++ t)) (l ++ INode n :: m0 ++ m)). constructor; assumption.
Qed.
Lemma body_misc s l : misc_loose s l -> body_loose s l.
Proof. intros H. rewrite <- (app_nil_r s), <- (app_nil_r l). constructor; [exact H|constructor]. Qed.
Lemma body_blank w : blank w -> body_loose w [].
Proof. intros H. apply body_misc. rewrite <- (app_nil_r w). constructor; [exact H|constructor]. Qed.

Inductive within : bytes -> list node -> Prop :=
| within_root p b o name ats a body items : head_loose p -> b = [] \/ b = str "<" -> tag_loose o name ats false -> attrs_of a ats ->
    body_loose body items -> within (p ++ b ++ o ++ body) [Node name a items]
| within_child p par r m l b o name ats a body items : within p (par :: r) -> misc_loose m l -> b = [] \/ b = str "<" ->
    tag_loose o name ats false -> attrs_of a ats -> body_loose body items ->
    within (p ++ str "<" ++ m ++ b ++ o ++ body) (Node name a items :: node_add par l :: r).
Definition finished (s : bytes) (n : node) : Prop :=
  exists pre b e post, s = pre ++ b ++ e ++ post /\ head_loose pre /\ (b = [] \/ b = str "<") /\ elem_loose e n.

Lemma within_add p n r t l : within p (n :: r) -> body_loose t l -> within (p ++ t) (node_add n l :: r).
Proof.
  intros H B. inversion H; subst; cbn [node_add].
  - rewrite <- !app_assoc. econstructor; try eassumption. apply body_loose_app; assumption.
  - rewrite <- !app_assoc. econstructor; try eassumption. apply body_loose_app; assumption.
Qed.
Lemma within_close p n par r c : within p (n :: par :: r) -> close_loose c (n_name n) -> within (p ++ c) (node_add par [INode n] :: r).
Proof.
  intros H C. inversion H; subst. rewrite node_add_app.
  replace ((p0 ++ str "<" ++ m ++ b ++ o ++ body) ++ c) with (p0 ++ (str "<" ++ m ++ b ++ (o ++ body ++ c) ++ [])) by (rewrite app_nil_r, <- !app_assoc; reflexivity).
  apply within_add; [assumption|]. constructor; try assumption; [|constructor]. econstructor; eassumption.
Qed.
Lemma within_end p n c post : within p [n] -> close_loose c (n_name n) -> finished (p ++ c ++ post) n.
Proof.
  intros H C. inversion H; subst. exists p0, b, (o ++ body ++ c), post. split; [rewrite <- !app_assoc; reflexivity|]. split; [assumption|]. split; [assumption|].
  econstructor; eassumption.
Qed.
Lemma within_name p n r : within p (n :: r) -> nul_free (n_name n).
Proof. intros H. inversion H; subst; eapply tag_name; eassumption. Qed.
Lemma within_nonempty p : ~ within p [].
Proof. intros H. inversion H. Qed.

Lemma node_sound s d r d' e : a_node s d = Some (r, d', e) ->
  exists m l b o name ats a, s = m ++ b ++ o ++ r /\ misc_loose m l /\ (b = [] \/ b = str "<") /\ tag_loose o name ats e /\ attrs_of a ats /\
    (p_stack d', p_root d') = (if e then match stack_add (p_stack d) l with [] => ([], Some (Node name a [])) | x => (stack_add x [INode (Node name a [])], p_root d) end
      else (Node name a [] :: stack_add (p_stack d) l, p_root d)).
Proof.
  rewrite a_node_eq. unfold a_comments. destruct (a_comments_loop _ s d) as [[s1 d1]|] eqn:C; [|discriminate].
  destruct (comments_sound _ _ _ _ _ C) as (m & l & E1 & M & S1 & R1).
  destruct (match after (s2b "<") s1 with Some s => Some s | None => match s1 with [] => None | _ => Some s1 end end) as [s2|] eqn:B; [|discriminate].
  assert (Hb : exists b, s1 = b ++ s2 /\ (b = [] \/ b = str "<")).
  { destruct (after (s2b "<") s1) as [z|] eqn:A; [injection B as <-; apply after_Some in A; exists (str "<"); auto|].
    destruct s1; [discriminate|]. injection B as <-. exists []. auto. }
  destruct Hb as (b & Eb & Hb). unfold a_open. destruct (a_tag s2 d1) as [[[[[s3 d3] a] name] e']|] eqn:T; [|discriminate].
  destruct (tag_sound _ _ _ _ _ _ _ T) as (o & ats & E3 & To & Ao & S3 & R3). intros H.
  exists m, l, b, o, name, ats, a.
  destruct e'; injection H as <- <- <-; (split; [rewrite E1, Eb, E3; reflexivity|]); (split; [exact M|]); (split; [exact Hb|]); (split; [exact To|]); (split; [exact Ao|]).
  - unfold add_node. rewrite S3, S1. destruct (stack_add (p_stack d) l) as [|x y] eqn:Sl; [cbn; rewrite S3, S1; reflexivity|].
    destruct (add_item_stack d3 (INode (Node name a []))) as [-> ->]. rewrite S3, S1, R3, R1. reflexivity.
  - cbn. rewrite S3, S1, R3, R1. reflexivity.
Qed.
Lemma removelast_last_white (t : bytes) : t <> [] -> t = removelast t ++ [last t NUL].
Proof. intros. apply app_removelast_last. assumption. Qed.
Lemma close_sound s d r n st : p_stack d = n :: st -> nul_free (n_name n) -> a_close s d = Some r ->
  exists c, s2b "</" ++ s = c ++ r /\ close_loose c (n_name n).
Proof.
  intros Sd Nn. unfold a_close. destruct (until _ s) as [[[[[|c t] it] x] s1]|] eqn:U; try discriminate.
  destruct (until_char_inv ">" _ _ _ _ _ eq_refl U) as (E & _ & N). rewrite Sd.
  remember (c :: t) as u eqn:Eu. rewrite (cstr_id _ Nn).
  destruct (bytes_eqb (n_name n) _) eqn:Q; [|discriminate]. apply bytes_eqb_eq in Q. intros H. injection H as <-.
  assert (Hu : u <> []) by (rewrite Eu; discriminate). clear Eu c t. rewrite is_ws_white in Q.
  exists (str "</" ++ u ++ str ">"). split; [rewrite E, <- !app_assoc; reflexivity|].
  destruct (white (last u NUL)) eqn:W.
  - exists (removelast u), [last u NUL]. rewrite (app_assoc (removelast u)). rewrite <- removelast_last_white by exact Hu. repeat split; try assumption; eauto.
  - exists u, []. rewrite app_nil_r. repeat split; try assumption; auto.
Qed.

Lemma content_sound content : forall f s d p r d', content = p ++ s -> within p (p_stack d) -> a_content f s d = Some (r, d') -> p_stack d' = [] ->
  exists n, p_root d' = Some n /\ finished content n.
Proof.
  induction f as [|f IH]; intros s d p r d' Ec Wi H F; [discriminate|]. cbn [a_content] in H.
  destruct s as [|c0 s0]; [injection H as <- <-; rewrite F in Wi; destruct (within_nonempty _ Wi)|].
  remember (c0 :: s0) as s eqn:Es. assert (Ns : s <> []) by (rewrite Es; discriminate).
  match type of H with context [starts (s2b "<?") ?x] => set (s1 := x) in * end.
  assert (Hw : exists w, blank w /\ s = w ++ s1).
  { unfold s1. destruct (hd false (p_preserve d)); [exists []; split; reflexivity|apply skip_blank_split]. }
  destruct Hw as (w & Bw & Ew).
  assert (Sd : exists n st, p_stack d = n :: st). { destruct (p_stack d) eqn:E; [destruct (within_nonempty _ Wi)|eauto]. }
  destruct Sd as (n & st & Sd). rewrite Sd in Wi.
  destruct (starts (s2b "<?") s1 || starts (s2b "<!--") s1).
  { destruct (a_comments s1 d) as [[s2 d2]|] eqn:C; [|discriminate].
    destruct (comments_sound _ _ _ _ _ C) as (m & l & E2 & M & S2 & R2).
    eapply (IH s2 d2 (p ++ w ++ m)); [rewrite Ec, Ew, E2, <- !app_assoc; reflexivity| |exact H|exact F].
    rewrite S2, Sd. cbn [stack_add]. apply within_add; [exact Wi|]. apply (body_loose_app w [] m l); [apply body_blank, Bw|apply body_misc, M]. }
  destruct (after (s2b "</") s1) as [s2|] eqn:A1.
  { apply after_Some in A1. destruct (a_close s2 d) as [s3|] eqn:C; [|discriminate].
    destruct (close_sound _ _ _ _ _ Sd (within_name _ _ _ Wi) C) as (c & E3 & Hc). rewrite Sd in H.
    assert (W1 : within (p ++ w) (n :: st)). { rewrite <- (node_add_nil n). apply within_add; [exact Wi|apply body_blank, Bw]. }
    destruct st as [|par st].
    - assert (H' : Some (s3, closed n [] d) = Some (r, d')) by exact H. injection H' as <- <-.
      exists n. split; [reflexivity|]. rewrite Ec, Ew, A1, E3.
      replace (p ++ w ++ c ++ s3) with ((p ++ w) ++ c ++ s3) by (rewrite <- app_assoc; reflexivity). apply within_end; assumption.
    - eapply (IH s3 (closed n (par :: st) d) ((p ++ w) ++ c)); [rewrite Ec, Ew, A1, E3, <- !app_assoc; reflexivity| |exact H|exact F].
      unfold closed. cbn [p_stack with_preserve add_node with_stack add_item]. rewrite add_to_eq. apply within_close; assumption. }
  destruct (after (s2b "<![CDATA[") s1) as [s2|] eqn:A2.
  { apply after_Some in A2. destruct (until _ s2) as [[[[t it] x] s3]|] eqn:U; [|discriminate].
    destruct (until_one (s2b "]]>") _ _ _ _ _ eq_refl ltac:(discriminate) U) as (E3 & _ & N3).
    eapply (IH s3 (add_item d (ICdata (cstr t))) (p ++ w ++ (s2b "<![CDATA[" ++ t ++ s2b "]]>" ++ []))).
    - rewrite Ec, Ew, A2, E3, app_nil_r, <- !app_assoc. reflexivity.
    - destruct (add_item_stack d (ICdata (cstr t))) as [-> _]. rewrite Sd. cbn [stack_add]. apply within_add; [exact Wi|].
      apply (body_loose_app w [] _ [ICdata (cstr t)]); [apply body_blank, Bw|]. constructor; [exact N3|constructor].
    - exact H.
    - exact F. }
  destruct (after (s2b "<") s1) as [s2|] eqn:A3.
  { apply after_Some in A3. destruct (a_node s2 d) as [[[s3 d3] e]|] eqn:Na; [|discriminate].
    destruct (node_sound _ _ _ _ _ Na) as (m & l & b & o & name & ats & a & E3 & M & Hb & To & Ao & Sr). rewrite Sd in Sr. cbn [stack_add] in Sr.
    assert (W1 : within (p ++ w) (n :: st)). { rewrite <- (node_add_nil n). apply within_add; [exact Wi|apply body_blank, Bw]. }
    destruct e.
    - eapply (IH s3 d3 ((p ++ w) ++ (str "<" ++ m ++ b ++ o ++ []))); [rewrite Ec, Ew, A3, E3, app_nil_r, <- !app_assoc; reflexivity| |exact H|exact F].
      cbn [stack_add] in Sr. injection Sr as Sr _. rewrite Sr, node_add_app. apply within_add; [exact W1|]. constructor; try assumption; [|constructor]. econstructor; eassumption.
    - eapply (IH s3 d3 ((p ++ w) ++ str "<" ++ m ++ b ++ o ++ [])); [rewrite Ec, Ew, A3, E3, app_nil_r, <- !app_assoc; reflexivity| |exact H|exact F].
      injection Sr as Sr _. rewrite Sr. econstructor; try eassumption. constructor. }
  destruct (until [s2b "<"] s) as [[[[t it] s2] s3]|] eqn:U; [|discriminate].
  destruct (until_char_inv "<" _ _ _ _ _ eq_refl U) as (E3 & E4 & N3).
  assert (Nt : t <> []).
  { intros ->. cbn [app] in E3. assert (s1 = s) by (unfold s1; destruct (hd false (p_preserve d)); [reflexivity|rewrite E3; reflexivity]).
    rewrite H0, E3 in A3. discriminate. }
  eapply (IH s2 (add_item d (IContent (cstr t))) (p ++ (t ++ []))); [rewrite Ec, E3, E4, app_nil_r, <- app_assoc; reflexivity| |exact H|exact F].
  destruct (add_item_stack d (IContent (cstr t))) as [-> _]. rewrite Sd. cbn [stack_add]. apply within_add; [exact Wi|].
  constructor; [exact N3|exact Nt|constructor].
Qed.

(** ** headers *)
Lemma field_sound name s e r : a_field (name ++ str "=") s = Some (e, r) -> exists t, s = t ++ r /\ field_loose name t.
Proof.
  unfold a_field. destruct (0 <? several s (Q1 (name ++ str "=")) (Q2 (name ++ str "="))) eqn:Sv.
  - destruct (until quotes _) as [[[[t it] x] y]|] eqn:U; [|discriminate]. intros H. injection H as <- <-.
    destruct (GramProofs5.until_quotes_split _ _ _ _ _ U) as (q' & Hq' & E).
    assert (N1 : has "'" t = false). { apply occurs_has. eapply (until_free quotes); [exact U|left; reflexivity|reflexivity|discriminate]. }
    assert (N2 : has "034" t = false). { apply occurs_has. eapply (until_free quotes); [exact U|right; left; reflexivity|reflexivity|discriminate]. }
    unfold several, rest2, rest_of in *. destruct (after (Q1 _) s) as [r1|] eqn:A1.
    + apply after_Some in A1. subst s r1. exists (name ++ str "=" ++ ["034"%char] ++ t ++ [q']).
      split; [unfold Q1; rewrite <- !app_assoc; reflexivity|]. right. exists "034"%char, t, q'. repeat split; try assumption. right. reflexivity.
    + destruct (after (Q2 _) s) as [r2|] eqn:A2; [|destruct (_ || _) in Sv; discriminate].
      apply after_Some in A2. subst s r2. exists (name ++ str "=" ++ ["'"%char] ++ t ++ [q']).
      split; [unfold Q2; rewrite <- !app_assoc; reflexivity|]. right. exists "'"%char, t, q'. repeat split; try assumption. left. reflexivity.
  - intros H. injection H as <- <-. exists []. split; [|left; reflexivity]. unfold several, rest2, rest_of in *.
    destruct (after (Q1 _) s); [discriminate|]. destruct (after (Q2 _) s); [discriminate|reflexivity].
Qed.
Lemma decl_sound s d r d' : p_stack d = [] -> a_decl s d = Ok (Some (r, d')) ->
  exists t m l, s2b "<?" ++ s = t ++ m ++ r /\ decl_loose t /\ misc_loose m l /\ p_stack d' = [] /\ p_root d' = p_root d.
Proof.
  intros Sd. unfold a_decl. destruct (after (s2b "xml") s) as [s1|] eqn:A1; [|discriminate]. apply after_Some in A1. cbv zeta.
  destruct (insp _ _ =? 0); [discriminate|].
  destruct (skip_blank_split s1) as (w1 & B1 & E1). set (s2 := skip s1) in *.
  assert (V : exists tv, s2 = tv ++ rest_of s2 (s2b "version=") /\ (tv = [] \/ tv = str "version=")).
  { unfold rest_of. destruct (after (s2b "version=") s2) eqn:A; [apply after_Some in A; exists (str "version="); auto|exists []; auto]. }
  destruct V as (tv & Ev & Hv). set (s3 := rest_of s2 (s2b "version=")) in *.
  destruct (skip_blank_split s3) as (w2 & B2 & E2). set (s4 := skip s3) in *.
  destruct (several s4 V1 V2 =? 0); [discriminate|].
  assert (V : exists tn, s4 = tn ++ rest2 s4 V1 V2 /\ version_loose tn).
  { unfold rest2, rest_of. destruct (after V1 s4) eqn:Ax; [|destruct (after V2 s4) eqn:Ay].
    - apply after_Some in Ax. exists V1. split; [exact Ax|]. right. exists "034"%char. split; [right|]; reflexivity.
    - apply after_Some in Ay. exists V2. split; [exact Ay|]. right. exists "'"%char. split; [left|]; reflexivity.
    - exists []. split; [reflexivity|left; reflexivity]. }
  destruct V as (tn & En & Hn). set (s5 := rest2 s4 V1 V2) in *.
  destruct (skip_blank_split s5) as (w3 & B3 & E3). set (s6 := skip s5) in *.
  destruct (a_field (s2b "encoding=") s6) as [[e s7]|] eqn:F1; [|discriminate].
  destruct (field_sound (str "encoding") _ _ _ F1) as (te & E4 & He).
  destruct (skip_blank_split s7) as (w4 & B4 & E5). set (s8 := skip s7) in *.
  destruct (a_field (s2b "standalone=") s8) as [[e' s9]|] eqn:F2; [|discriminate].
  destruct (field_sound (str "standalone") _ _ _ F2) as (ts & E6 & Hs).
  destruct (skip_blank_split s9) as (w5 & B5 & E7). set (s10 := skip s9) in *.
  set (d1 := match e with Some e => with_encoding d (Some (cstr e)) | None => d end) in *.
  assert (D1 : p_stack d1 = [] /\ p_root d1 = p_root d) by (unfold d1; destruct e; auto).
  destruct (match e' with None => Ok d1 | Some e => y <- is_yes e ;; Ok (with_standalone d1 y) end) as [d2| |] eqn:D2; cbn [bind]; [|discriminate|discriminate].
  assert (D3 : p_stack d2 = [] /\ p_root d2 = p_root d).
  { destruct e' as [v|]; [|injection D2 as <-; exact D1]. destruct (is_yes v); [|discriminate|discriminate]. cbn [bind] in D2. injection D2 as <-. exact D1. }
  destruct (after (s2b "?>") s10) as [s11|] eqn:A2; [|discriminate]. apply after_Some in A2.
  intros H. injection H as H. destruct (comments_sound _ _ _ _ _ H) as (m & l & Em & M & Sm & Rm).
  exists (str "<?xml" ++ w1 ++ tv ++ w2 ++ tn ++ w3 ++ te ++ w4 ++ ts ++ w5 ++ str "?>"), m, l.
  split. { rewrite A1, E1, Ev, E2, En, E3, E4, E5, E6, E7, A2, Em. rewrite <- !app_assoc. reflexivity. }
  split; [constructor; assumption|]. split; [exact M|]. split; [rewrite Sm, (proj1 D3); reflexivity|rewrite Rm; apply D3].
Qed.
Lemma until_none_tag s : until [s2b ">"] s = None -> has ">" s = false.
Proof. apply until_none. reflexivity. Qed.
Lemma tag_end o name ats e : tag_loose o name ats e -> has ">" o = true.
Proof.
  intros H. inversion H; subst; rewrite !has_app, ?orb_true_iff; auto.
  right. right. right. match goal with X : _ \/ _ |- _ => destruct X as [[-> _]|[-> _]] end; reflexivity.
Qed.
Lemma doctype_sound s d r d' : p_stack d = [] -> a_doctype s d = Some (r, d') ->
  (exists t m l, s = t ++ m ++ r /\ doctype_text t /\ misc_loose m l) /\ p_stack d' = [] /\ p_root d' = p_root d \/
  (has ">" r = false).
Proof.
  intros Sd. unfold a_doctype. destruct (after (s2b "<!DOCTYPE") s) as [s1|] eqn:A.
  - apply after_Some in A. intros H. destruct (comments_sound _ _ _ _ _ H) as (m & l & Em & M & Sm & Rm).
    destruct (until [s2b ">"] s1) as [[[[t it] x] s2]|] eqn:U.
    + left. destruct (until_char_inv ">" _ _ _ _ _ eq_refl U) as (E1 & _ & N1). split; [|rewrite Sm, Sd; auto].
      exists (str "<!DOCTYPE" ++ t ++ str ">"), m, l. split; [rewrite A, E1, Em, <- !app_assoc; reflexivity|]. split; [constructor; exact N1|exact M].
    + right. apply until_none_tag in U. rewrite Em, has_app in U. apply orb_false_iff in U. tauto.
  - intros H. injection H as <- <-. left. split; [|auto]. exists [], [], []. split; [reflexivity|]. split; constructor.
Qed.
Lemma rest_of_split s c : exists b, s = b ++ rest_of s c /\ (b = [] \/ b = c).
Proof. unfold rest_of. destruct (after c s) eqn:A; [apply after_Some in A; exists c; auto|exists []; auto]. Qed.
Lemma header_sound s d r d' : p_stack d = [] -> p_root d = None -> a_header s d = Ok (Some (r, d')) ->
  (exists p, s = p ++ r /\ (forall m l, misc_loose m l -> head_loose (p ++ m)) /\ p_stack d' = [] /\ p_root d' = None) \/ has ">" r = false.
Proof.
  intros Sd Rd. unfold a_header. destruct (rest_of_split s BOM) as (b & Eb & Hb). set (s1 := rest_of s BOM) in *.
  destruct (insp s1 (s2b "<?") =? 0) eqn:I.
  - cbn [bind]. intros H. injection H as H. destruct (doctype_sound _ _ _ _ Sd H) as [((t & m & l & E & T & M) & S' & R')|N]; [|auto].
    left. exists (b ++ t ++ m). split; [rewrite Eb, E, <- !app_assoc; reflexivity|]. split; [|split; congruence].
    intros m2 l2 M2. replace ((b ++ t ++ m) ++ m2) with (b ++ [] ++ [] ++ t ++ (m ++ m2)) by (rewrite <- !app_assoc; reflexivity).
    apply (Head_loose b [] [] [] t (m ++ m2) (l ++ l2)); auto; [constructor|]. apply misc_loose_app; assumption.
  - destruct (a_decl _ d) as [[[s2 d2]|]| |] eqn:D; cbn [bind]; try discriminate. intros H. injection H as H.
    destruct (decl_sound _ _ _ _ Sd D) as (td & m1 & l1 & E1 & Td & M1 & S2 & R2).
    assert (E0 : s1 = s2b "<?" ++ rest_of s1 (s2b "<?")).
    { unfold rest_of in *. destruct (after (s2b "<?") s1) eqn:A; [apply after_Some in A; exact A|]. exfalso.
      unfold insp in I. rewrite A in I. destruct (length s1 <? length (s2b "<?"))%nat eqn:L; [|discriminate]. apply Nat.ltb_lt in L. cbn in L.
      unfold a_decl in D. destruct (after (s2b "xml") s1) eqn:A2; [|discriminate]. apply after_Some in A2. rewrite A2, app_length in L. cbn in L. lia. }
    destruct (doctype_sound _ _ _ _ S2 H) as [((t & m & l & E & T & M) & S' & R')|N]; [|auto].
    left. exists (b ++ td ++ m1 ++ t ++ m). split; [rewrite Eb, E0, E1, E, <- !app_assoc; reflexivity|]. split; [|split; congruence].
    intros m2 l2 M2. replace ((b ++ td ++ m1 ++ t ++ m) ++ m2) with (b ++ td ++ m1 ++ t ++ (m ++ m2)) by (rewrite <- !app_assoc; reflexivity).
    apply (Head_loose b td m1 l1 t (m ++ m2) (l ++ l2)); auto. apply misc_loose_app; assumption.
Qed.
Theorem parse_sound content d : doc_parse content = Ok (Some d) -> exists n, d_root d = Some n /\ finished content n.
Proof.
  rewrite parse_ok. unfold a_parse. destruct (a_header content pdoc_new) as [[[s d1]|]| |] eqn:Hh; cbn [bind]; try discriminate.
  intros H. injection H as H. unfold a_body in H. destruct (a_node s (with_header d1)) as [[[s2 d2] e]|] eqn:N; [|discriminate].
  destruct (node_sound _ _ _ _ _ N) as (m & l & b & o & name & ats & a & E & M & Hb & To & Ao & Sr).
  destruct (header_sound content pdoc_new s d1 eq_refl eq_refl Hh) as [(p & Ep & Hp & S1 & R1)|Ng].
  2:{ exfalso. rewrite E in Ng. rewrite !has_app, !orb_false_iff in Ng. pose proof (tag_end _ _ _ _ To). destruct Ng as (_ & _ & Ng & _). congruence. }
  specialize (Hp m l M). cbn [p_stack with_header] in Sr. rewrite S1 in Sr. cbn [stack_add] in Sr. destruct e.
  - injection Sr as S2 R2. unfold a_done in H. rewrite S2 in H. injection H as <-. exists (Node name a []). split; [exact R2|].
    exists (p ++ m), b, o, s2. split; [rewrite Ep, E, <- !app_assoc; reflexivity|]. split; [exact Hp|]. split; [exact Hb|]. econstructor; eassumption.
  - injection Sr as S2 R2. destruct (a_content _ s2 d2) as [[s3 d3]|] eqn:C; [|discriminate]. unfold a_done in H.
    destruct (p_stack d3) eqn:S3; [|discriminate]. injection H as <-. cbn [d_root].
    eapply (content_sound content _ s2 d2 ((p ++ m) ++ b ++ o ++ [])); [| |exact C|exact S3].
    + rewrite Ep, E, app_nil_r, <- !app_assoc. reflexivity.
    + rewrite S2. econstructor; try eassumption. constructor.
Qed.
