(** Documents that are cut off: what is left of a root is not accepted. *)
From Verif Require Import Prelude StrModel StrSpec StrProofs EscProofs StrProofs2 StrProofs3 AttrModel AttrSpec AttrProofs
  TreeModel StreamModel StreamProofs ParseModel ParseProofs ParseProofs2 XmlSpec GramProofs GramProofs2 GramProofs3 CutSpec.
Open Scope Z_scope.
Open Scope list_scope.
Local Arguments Z.of_nat : simpl never.
Local Arguments Z.eqb : simpl never.

(** ** texts without [>] *)
Definition low (s : bytes) : Prop := has ">" s = false.
Lemma low_app a b : low (a ++ b) <-> low a /\ low b.
Proof. unfold low. rewrite has_app. destruct (has ">" a), (has ">" b); cbn; intuition congruence. Qed.
Lemma low_skip s : low s -> low (skip s).
Proof. destruct (StreamProofs.skip_split s) as (w & E & _). intros H. rewrite E in H. apply low_app in H. tauto. Qed.
Lemma low_after c s r : low s -> after c s = Some r -> low r.
Proof. intros H A. apply after_Some in A. subst. apply low_app in H. tauto. Qed.
Lemma after_gt c s : low s -> has ">" c = true -> after c s = None.
Proof. intros H C. destruct (after c s) eqn:A; [|reflexivity]. apply after_Some in A. subst. apply low_app in H. unfold low in H. destruct H; congruence. Qed.
Lemma until_split chunks : forall s t it a b, until chunks s = Some (t, it, a, b) -> s = t ++ a /\ exists x, a = x ++ b.
Proof.
  induction s as [|c s IH]; intros t it a b H; cbn [until] in H; [discriminate|].
  destruct (stop_at chunks (c :: s)) as [[i n]|].
  - injection H as <- <- <- <-. split; [reflexivity|]. exists (firstn n (c :: s)). symmetry. apply firstn_skipn.
  - destruct (until chunks s) as [[[[t0 i0] a0] b0]|] eqn:U; [|discriminate]. injection H as <- <- <- <-.
    destruct (IH _ _ _ _ eq_refl) as [E X]. split; [cbn; f_equal; exact E|exact X].
Qed.
Lemma low_until chunks s t it a b : low s -> until chunks s = Some (t, it, a, b) -> low b /\ low a /\ low t.
Proof. intros L U. apply until_split in U. destruct U as (E & x & X). subst. apply low_app in L. destruct L as [L1 L2]. pose proof L2 as L3. apply low_app in L2. tauto. Qed.
Lemma hit_gt chunks s it : low s -> forallb (fun c => has ">" c || ws_chunk c) chunks = true -> hit chunks s it = None.
Proof.
  intros L. revert it. induction chunks as [|c l IH]; intros it H; cbn [hit forallb] in *; [reflexivity|]. apply andb_true_iff in H. destruct H as [H1 H2].
  destruct (ws_chunk c); [apply IH, H2|]. rewrite orb_false_r in H1. rewrite after_gt by assumption. apply IH, H2.
Qed.
Lemma until_gt chunks s : low s -> forallb (fun c => has ">" c) chunks = true -> existsb ws_chunk chunks = false -> until chunks s = None.
Proof.
  intros L H W. induction s as [|c s IH]; cbn [until]; [reflexivity|]. unfold stop_at. rewrite W. cbn [andb]. rewrite hit_gt; [|exact L|].
  - rewrite IH; [reflexivity|]. apply (low_app [c] s) in L. tauto.
  - clear -H. induction chunks as [|k l IH]; cbn in *; [reflexivity|]. apply andb_true_iff in H. destruct H as [-> H]. cbn. auto.
Qed.
Lemma until_tag_low s t it a b : low s -> until [s2b ">"; s2b " "] s = Some (t, it, a, b) -> it = 1 /\ low b.
Proof.
  intros L U. split; [|exact (proj1 (low_until _ _ _ _ _ _ L U))]. revert t it a b L U. induction s as [|c s IH]; intros t it a b L U; cbn [until] in U; [discriminate|].
  destruct (stop_at _ (c :: s)) as [[i n]|] eqn:H.
  - injection U as _ <- _ _. unfold stop_at in H. change (existsb ws_chunk [s2b ">"; s2b " "]) with true in H. cbn [andb] in H.
    destruct (is_ws c); [injection H as <- _; reflexivity|]. rewrite hit_gt in H by (assumption || reflexivity). discriminate.
  - destruct (until _ s) as [[[[t0 i0] a0] b0]|] eqn:U0; [|discriminate]. injection U as _ <- _ _. eapply IH; [|reflexivity]. apply (low_app [c] s) in L. tauto.
Qed.
Lemma until_pi_low s t it a b : low s -> until [s2b " ?>"; s2b "?>"; s2b " "] s = Some (t, it, a, b) -> it = 2 /\ low b.
Proof.
  intros L U. split; [|exact (proj1 (low_until _ _ _ _ _ _ L U))]. revert t it a b L U. induction s as [|c s IH]; intros t it a b L U; cbn [until] in U; [discriminate|].
  destruct (stop_at _ (c :: s)) as [[i n]|] eqn:H.
  - injection U as _ <- _ _. unfold stop_at in H. change (existsb ws_chunk [s2b " ?>"; s2b "?>"; s2b " "]) with true in H. cbn [andb] in H.
    destruct (is_ws c); [injection H as <- _; reflexivity|]. rewrite hit_gt in H by (assumption || reflexivity). discriminate.
  - destruct (until _ s) as [[[[t0 i0] a0] b0]|] eqn:U0; [|discriminate]. injection U as _ <- _ _. eapply IH; [|reflexivity]. apply (low_app [c] s) in L. tauto.
Qed.

Lemma attrs_low : forall f s d a, low s -> a_attrs f s d a = None.
Proof.
  induction f as [|f IH]; intros s d a L; cbn [a_attrs]; [reflexivity|]. rewrite !after_gt by (assumption || reflexivity).
  destruct (until [s2b "="] (skip s)) as [[[[t it] x] s1]|] eqn:U; [|reflexivity].
  apply (low_until _ _ _ _ _ _ (low_skip _ L)) in U. destruct U as [L1 _]. destruct (cstr t); [reflexivity|].
  destruct (a_quote s1) as [[q s2]|] eqn:Q; [|reflexivity].
  assert (L2 : low s2). { unfold a_quote in Q. destruct (after ["034"%char] s1) eqn:A1; [injection Q as _ <-; eapply low_after; eassumption|].
    destruct (after ["039"%char] s1) eqn:A2; [injection Q as _ <-; eapply low_after; eassumption|discriminate]. }
  unfold a_value. destruct (until [[q]] s2) as [[[[v i] y] s3]|] eqn:V.
  - apply (low_until _ _ _ _ _ _ L2) in V. destruct V as [L3 _]. destruct (a_has _ _); [reflexivity|]. destruct (a_preserve _ _ _); [|reflexivity]. apply IH, low_skip, L3.
  - destruct (a_has _ _); [reflexivity|]. destruct (a_preserve _ _ _); [|reflexivity]. apply IH, low_skip, L2.
Qed.
Lemma open_low s d : low s -> a_open s d = None.
Proof.
  intros L. unfold a_open, a_tag. destruct (until [s2b ">"; s2b " "] s) as [[[[t it] x] s1]|] eqn:U; [|reflexivity].
  destruct (until_tag_low _ _ _ _ _ L U) as [-> L1]. destruct (cstr t); [reflexivity|]. change (1 =? 1) with true. cbv iota. unfold A_attrs.
  rewrite attrs_low by (apply low_skip, L1). reflexivity.
Qed.
Lemma pi_low s d x : low s -> after (s2b "<?") s = Some x -> a_pi s d = None.
Proof.
  intros L A1. unfold a_pi. rewrite A1. pose proof (low_after _ _ _ L A1) as L1.
  destruct (until _ x) as [[[[t it] y] s1]|] eqn:U; [|reflexivity]. destruct (until_pi_low _ _ _ _ _ L1 U) as [-> L2].
  destruct (bytes_eqb _ _); [reflexivity|]. change ((2 =? 0) || (2 =? 1)) with false. change (2 =? 2) with true. cbv iota.
  rewrite until_gt by (assumption || reflexivity). reflexivity.
Qed.
(** the skipping of comments and processing instructions stops, or does nothing *)
Lemma comments_low s d : low s -> a_comments s d = None \/ (a_comments s d = Some (skip s, d) /\ after (s2b "<!--") (skip s) = None /\ (p_header d = true -> after (s2b "<?") (skip s) = None)).
Proof.
  intros L. rewrite a_comments_eq. pose proof (low_skip _ L) as L1. unfold a_comment. destruct (after (s2b "<!--") (skip s)) as [s1|] eqn:A1.
  - left. rewrite until_gt; [reflexivity|eapply low_after; eassumption|reflexivity|reflexivity].
  - rewrite skip_skip. destruct (p_header d); [|right; split; [reflexivity|split; [reflexivity|discriminate]]].
    destruct (after (s2b "<?") (skip s)) as [s1|] eqn:A2; [left; rewrite (pi_low _ _ _ L1 A2); reflexivity|right; auto].
Qed.
Lemma node_low s d : low s -> a_node s d = None.
Proof.
  intros L. rewrite a_node_eq. destruct (comments_low s d L) as [->|(-> & _)]; [reflexivity|]. pose proof (low_skip _ L) as L1.
  destruct (after (s2b "<") (skip s)) eqn:A1; [apply open_low; eapply low_after; eassumption|]. destruct (skip s); [reflexivity|apply open_low, L1].
Qed.

(** ** what is not finished *)
Definition unfinished (r : option (bytes * pdoc)) : Prop := r = None \/ exists d, r = Some ([], d) /\ p_stack d <> [].
Lemma A_nil d : A [] d = Some ([], d).
Proof. reflexivity. Qed.
Lemma A_low : forall n s d, (length s <= n)%nat -> fine d -> low s -> s <> [] -> A s d = None.
Proof.
  induction n as [|n IH]; intros s d Ln Hd L Ne; [destruct s; [contradiction|cbn in Ln; lia]|]. rewrite A_eq by assumption. pose proof (low_skip _ L) as L1.
  destruct (starts (s2b "<?") (skip s) || starts (s2b "<!--") (skip s)) eqn:Sx.
  - unfold B. destruct (comments_low (skip s) d L1) as [->|(_ & N1 & N2)]; [reflexivity|exfalso]. rewrite skip_skip in N1, N2. unfold starts in Sx.
    rewrite N1, (N2 (proj1 Hd)) in Sx. discriminate.
  - destruct (after (s2b "</") (skip s)) as [s1|] eqn:A1.
    + unfold a_close. rewrite until_gt; [reflexivity|eapply low_after; eassumption|reflexivity|reflexivity].
    + destruct (after (s2b "<![CDATA[") (skip s)) as [s1|] eqn:A2.
      * rewrite until_gt; [reflexivity|eapply low_after; eassumption|reflexivity|reflexivity].
      * destruct (after (s2b "<") (skip s)) as [s1|] eqn:A3; [rewrite node_low; [reflexivity|eapply low_after; eassumption]|].
        destruct (until [s2b "<"] s) as [[[[t it] x] y]|] eqn:U; [|reflexivity]. destruct (low_until _ _ _ _ _ _ L U) as (_ & L2 & _).
        destruct s as [|c s]; [contradiction|]. pose proof (text_progress _ _ _ _ _ _ (no_lt_skip _ A3) U) as P. apply IH; [cbn [length] in *; lia|apply fine_item, Hd|exact L2|].
        intros ->. pose proof (until_split _ _ _ _ _ _ U) as [E1 (z & E2)]. symmetry in E2. apply app_eq_nil in E2. destruct E2 as [-> ->]. rewrite app_nil_r in E1. subst t.
        clear -U. assert (X : forall s t it y, until [s2b "<"] s = Some (t, it, [], y) -> False).
        { clear. induction s as [|k s IH]; intros t it y H; cbn [until] in H; [discriminate|]. destruct (stop_at _ _) as [[i n]|]; [discriminate|].
          destruct (until _ s) as [[[[t0 i0] a0] b0]|] eqn:U; [|discriminate]. injection H as _ _ -> _. eapply IH; reflexivity. }
        eapply X, U.
Qed.
Lemma A_low' s d n r : fine d -> low s -> p_stack d = n :: r -> unfinished (A s d).
Proof.
  intros Hd L E. destruct s as [|c s]; [right; exists d; split; [reflexivity|rewrite E; discriminate]|]. left. apply (A_low (length (c :: s))); try assumption; [lia|discriminate].
Qed.
Lemma enter_low p s d n r : fine d -> low s -> p_stack d = n :: r -> unfinished (enter p s d).
Proof.
  intros Hd L E. destruct p; cbn [enter]; try (eapply A_low'; eassumption). unfold B. destruct (comments_low s d L) as [->|(-> & _)]; [left; reflexivity|].
  eapply A_low'; [exact Hd|apply low_skip, L|exact E].
Qed.
(** text that does not end *)
Lemma A_no_lt s d : fine d -> has "<" s = false -> s <> [] -> A s d = None.
Proof.
  intros Hd H Ne. rewrite A_eq by assumption.
  assert (K : match skip s with [] => True | c :: _ => c <> "<"%char end).
  { destruct (StreamProofs.skip_split s) as (w & E & _). destruct (skip s) as [|c r]; [exact I|]. rewrite E in H. eapply has_in, H. }
  assert (N : forall p, after ("<"%char :: p) (skip s) = None) by (intros p; destruct (skip s); [reflexivity|apply after_ne; congruence]).
  unfold starts. change (s2b "<?") with ("<"%char :: s2b "?"). change (s2b "<!--") with ("<"%char :: s2b "!--").
  change (s2b "</") with ("<"%char :: s2b "/"). change (s2b "<![CDATA[") with ("<"%char :: s2b "![CDATA["). change (s2b "<") with ["<"%char]. rewrite !N. cbn [orb].
  match goal with |- context [until ?c s] => assert (U : until c s = None); [change c with [["<"%char]]|rewrite U; reflexivity] end. clear -H. induction s as [|c s IH]; cbn [until]; [reflexivity|].
  rewrite stop_char; [|eapply (has_in _ []); exact H|reflexivity]. rewrite IH; [reflexivity|]. unfold has in *. cbn [existsb] in H. apply orb_false_iff in H. tauto.
Qed.

(** ** terminators that are cut *)
Lemma cut_two {X} (a b p z : list X) : a ++ b = p ++ z -> (exists p2, p = a ++ p2 /\ b = p2 ++ z) \/ (exists a2, a = p ++ a2 /\ a2 <> [] /\ z = a2 ++ b).
Proof.
  revert p. induction a as [|x a IH]; intros p E; [left; exists p; auto|]. destruct p as [|y p]; [right; exists (x :: a); split; [reflexivity|]; split; [discriminate|symmetry; exact E]|].
  cbn in E. injection E as <- E. destruct (IH _ E) as [(p2 & -> & H)|(a2 & -> & H)]; [left|right]; eexists; split; try reflexivity; exact H.
Qed.
Lemma until_occurs k s t it a b : ws_chunk k = false -> until [k] s = Some (t, it, a, b) -> exists v, s = t ++ k ++ v.
Proof.
  intros W. revert t it a b. induction s as [|c s IH]; intros t it a b U; cbn [until] in U; [discriminate|].
  destruct (stop_at [k] (c :: s)) as [[i n]|] eqn:H.
  - injection U as <- _ _ _. unfold stop_at in H. cbn [existsb hit] in H. rewrite W in H. cbn [orb andb] in H. destruct (after k (c :: s)) eqn:A1; [|discriminate].
    apply after_Some in A1. rewrite A1. eexists. reflexivity.
  - destruct (until [k] s) as [[[[t0 i0] a0] b0]|] eqn:U0; [|discriminate]. injection U as <- _ _ _. destruct (IH _ _ _ _ eq_refl) as [v ->]. exists v. reflexivity.
Qed.
Lemma until_first k s t it a b : ws_chunk k = false -> until [k] s = Some (t, it, a, b) -> forall u v, s = u ++ k ++ v -> (length t <= length u)%nat.
Proof.
  intros W. revert t it a b. induction s as [|c s IH]; intros t it a b U u v E; cbn [until] in U; [discriminate|].
  destruct (stop_at [k] (c :: s)) as [[i n]|] eqn:H; [injection U as <- _ _ _; cbn; lia|].
  destruct (until [k] s) as [[[[t0 i0] a0] b0]|] eqn:U0; [|discriminate]. injection U as <- _ _ _. destruct u as [|x u].
  - exfalso. unfold stop_at in H. cbn [existsb hit] in H. rewrite W in H. cbn [orb andb] in H. rewrite E in H. cbn [app] in H. rewrite after_app in H. discriminate.
  - cbn in E. injection E as _ E. specialize (IH _ _ _ _ eq_refl _ _ E). cbn. lia.
Qed.
Lemma until_cut k s x p z : ws_chunk k = false -> until [k] (s ++ k ++ x) = Some (s, 0, k ++ x, x) -> s ++ k = p ++ z -> z <> [] -> until [k] p = None.
Proof.
  intros W U E Nz. destruct (until [k] p) as [[[[t it] a] b]|] eqn:U0; [|reflexivity]. exfalso.
  destruct (until_occurs _ _ _ _ _ _ W U0) as [v Ev]. assert (E2 : s ++ k ++ x = t ++ k ++ (v ++ z ++ x)).
  { rewrite app_assoc, E, Ev, <- !app_assoc. reflexivity. }
  pose proof (until_first _ _ _ _ _ _ W U _ _ E2) as L. apply (f_equal (@length _)) in E. rewrite Ev, !app_length in E. destruct z; [contradiction|cbn in E; lia].
Qed.
Lemma occurs_app_l k a b : occurs k a -> occurs k (a ++ b).
Proof. intros (u & v & ->). exists u, (v ++ b). rewrite <- !app_assoc. reflexivity. Qed.
Lemma pi_cut c p z : ~ occurs (s2b "?>") c -> c ++ s2b "?>" = p ++ z -> z <> [] -> until [s2b " ?>"; s2b "?>"] p = None.
Proof.
  intros Ho E Nz.
  assert (No : forall u v, p <> u ++ s2b "?>" ++ v).
  { intros u v ->. assert (Ez : exists z' y, z = z' ++ [y]) by (destruct (exists_last Nz) as (z' & y & ->); eauto). destruct Ez as (z' & y & ->).
    assert (E2 : c ++ ["?"%char] = (u ++ s2b "?>" ++ v) ++ z').
    { apply (f_equal (@removelast _)) in E. rewrite app_assoc, !removelast_last in E. change (s2b "?>") with (["?"%char] ++ [">"%char]) in E at 1. rewrite app_assoc, removelast_last in E. exact E. }
    destruct (cut_two c ["?"%char] (u ++ s2b "?>") (v ++ z')) as [(p2 & H1 & H2)|(a2 & -> & _)]; [rewrite E2, <- !app_assoc; reflexivity| |].
    - destruct p2 as [|q p2].
      + rewrite app_nil_r in H1. apply Ho. rewrite <- H1. exists u, []. rewrite app_nil_r. reflexivity.
      + cbn in H2. injection H2 as <- H2. destruct p2; [|discriminate]. apply (f_equal (fun l => last l NUL)) in H1. change (s2b "?>") with (["?"%char] ++ [">"%char]) in H1. rewrite app_assoc, !last_last in H1. discriminate.
    - apply Ho. exists u, a2. rewrite <- app_assoc. reflexivity. }
  clear E Ho Nz. induction p as [|c0 p IH]; cbn [until]; [reflexivity|].
  assert (St : stop_at [s2b " ?>"; s2b "?>"] (c0 :: p) = None).
  { unfold stop_at. change (existsb ws_chunk [s2b " ?>"; s2b "?>"]) with false. cbn [andb hit]. change (ws_chunk (s2b " ?>")) with false. change (ws_chunk (s2b "?>")) with false. cbv iota.
    destruct (after (s2b " ?>") (c0 :: p)) eqn:A1; [exfalso; apply after_Some in A1; exact (No [" "%char] b A1)|].
    destruct (after (s2b "?>") (c0 :: p)) eqn:A2; [exfalso; apply after_Some in A2; exact (No [] b A2)|reflexivity]. }
  rewrite St, IH; [reflexivity|]. intros u v Ep. apply (No (c0 :: u) v). cbn. f_equal. exact Ep.
Qed.
