(** Texts of well-formed documents are accepted and give the tree they stand for. *)
From Coq Require Import Permutation.
From Verif Require Import Prelude StrModel StrSpec StrProofs EscProofs StrProofs2 StrProofs3 AttrModel AttrSpec AttrProofs
  TreeModel StreamModel StreamProofs ParseModel ParseProofs ParseProofs2 XmlSpec.
Open Scope Z_scope.
Local Arguments Z.of_nat : simpl never.
Local Arguments Z.to_nat : simpl never.
Local Arguments Z.add : simpl never.
Local Arguments Z.sub : simpl never.
Local Arguments Z.eqb : simpl never.
Local Arguments Z.ltb : simpl never.
Local Arguments Z.leb : simpl never.

(** ** white space *)
Lemma skip_blank w s : blank w -> skip (w ++ s) = skip s.
Proof.
  unfold blank. induction w as [|c w IH]; cbn [forallb app skip]; [reflexivity|]. rewrite andb_true_iff. intros [H1 H2].
  rewrite is_ws_white, H1. auto.
Qed.
Lemma skip_here c s : white c = false -> skip (c :: s) = c :: s.
Proof. intros H. cbn [skip]. rewrite is_ws_white, H. reflexivity. Qed.
Lemma skip_app_here w c s : blank w -> white c = false -> skip (w ++ c :: s) = c :: s.
Proof. intros H1 H2. rewrite skip_blank by assumption. apply skip_here, H2. Qed.
Lemma not_blank s : ~ blank s -> exists w c r, s = w ++ c :: r /\ blank w /\ white c = false.
Proof.
  unfold blank. induction s as [|c s IH]; intros H; [exfalso; apply H; reflexivity|].
  destruct (white c) eqn:W.
  - destruct IH as (w & c' & r & -> & B & W'). { intros B. apply H. simpl. rewrite W. exact B. }
    exists (c :: w), c', r. simpl. rewrite W. auto.
  - exists [], c, s. auto.
Qed.

(** ** finding terminators *)
Lemma until_here chunks s it n : stop_at chunks s = Some (it, n) -> s <> [] ->
  until chunks s = Some ([], it, s, skipn n s).
Proof. intros H Hs. destruct s as [|c s]; [contradiction|]. cbn [until]. rewrite H. reflexivity. Qed.
Lemma until_after chunks t s r : (forall a c b, t = a ++ c :: b -> stop_at chunks (c :: b ++ s) = None) ->
  until chunks s = Some r ->
  until chunks (t ++ s) = let '(t', it, x, y) := r in Some (t ++ t', it, x, y).
Proof.
  destruct r as [[[t' it] x] y]. intros H E. induction t as [|c t IH]; [exact E|].
  cbn [app until]. rewrite (H [] c t eq_refl). rewrite IH; [reflexivity|].
  intros a c' b ->. apply (H (c :: a)). reflexivity.
Qed.
Lemma stop_char q c s : c <> q -> ws_chunk [q] = false -> stop_at [[q]] (c :: s) = None.
Proof.
  intros N W. unfold stop_at. cbn [existsb]. rewrite W. cbn [orb andb hit]. rewrite W. cbn [after].
  destruct (Ascii.eqb_spec q c); [congruence|reflexivity].
Qed.
Lemma has_app c a b : has c (a ++ b) = has c a || has c b.
Proof. apply existsb_app. Qed.
Lemma has_in c a x b : has c (a ++ x :: b) = false -> x <> c.
Proof.
  rewrite has_app. cbn. rewrite !orb_false_iff. intros (_ & H & _) ->. rewrite Ascii.eqb_refl in H. discriminate.
Qed.
Lemma until_char q t s : has q t = false -> ws_chunk [q] = false -> until [[q]] (t ++ q :: s) = Some (t, 0, q :: s, s).
Proof.
  intros H W. rewrite (until_after [[q]] t (q :: s) ([], 0, q :: s, s)).
  - rewrite app_nil_r. reflexivity.
  - intros a c b ->. apply stop_char; [eapply has_in; eassumption|exact W].
  - rewrite (until_here [[q]] (q :: s) 0 1); [reflexivity| |discriminate].
    unfold stop_at. cbn [existsb]. rewrite W. cbn [orb andb hit]. rewrite W. cbn [after]. rewrite Ascii.eqb_refl. reflexivity.
Qed.

Lemma until_three x y z t s : ws_chunk [x; y; z] = false -> x <> z -> y <> z -> ~ occurs [x; y; z] t ->
  until [[x; y; z]] (t ++ [x; y; z] ++ s) = Some (t, 0, [x; y; z] ++ s, s).
Proof.
  intros W N1 N2 O. rewrite (until_after _ t ([x; y; z] ++ s) ([], 0, [x; y; z] ++ s, s)).
  - rewrite app_nil_r. reflexivity.
  - intros a c b ->. unfold stop_at. cbn [existsb]. rewrite W. cbn [orb andb hit]. rewrite W. cbn [after].
    destruct (Ascii.eqb_spec x c) as [->|]; [|reflexivity]. destruct b as [|c2 b]; cbn [app].
    + destruct (Ascii.eqb_spec y c) as [->|]; [|reflexivity]. destruct (Ascii.eqb_spec z c) as [->|]; [congruence|reflexivity].
    + destruct (Ascii.eqb_spec y c2) as [->|]; [|reflexivity]. destruct b as [|c3 b]; cbn [app].
      * destruct (Ascii.eqb_spec z c) as [->|]; [congruence|reflexivity].
      * destruct (Ascii.eqb_spec z c3) as [->|]; [|reflexivity]. exfalso. apply O. exists a, b. reflexivity.
  - rewrite (until_here _ _ 0 3); [reflexivity| |discriminate].
    unfold stop_at. cbn [existsb]. rewrite W. cbn [orb andb hit]. rewrite W. cbn [after app]. rewrite !Ascii.eqb_refl. reflexivity.
Qed.
Lemma until_comment t s : is_comment t -> until [s2b "-->"] (t ++ s2b "-->" ++ s) = Some (t, 0, s2b "-->" ++ s, s).
Proof. intros [_ H]. apply (until_three "-" "-" ">"); [reflexivity|discriminate|discriminate|exact H]. Qed.
Lemma until_cdata t s : ~ occurs (s2b "]]>") t -> until [s2b "]]>"] (t ++ s2b "]]>" ++ s) = Some (t, 0, s2b "]]>" ++ s, s).
Proof. intros H. apply (until_three "]" "]" ">"); [reflexivity|discriminate|discriminate|exact H]. Qed.

(** ** names *)
Lemma name_char_not c q : name_char c = true -> name_char q = false -> c <> q.
Proof. congruence. Qed.
Lemma name_forall s : forallb name_char s = true -> forall a c b, s = a ++ c :: b -> name_char c = true.
Proof. intros H a c b ->. rewrite forallb_app in H. simpl in H. apply andb_true_iff in H. destruct H as [_ H]. apply andb_true_iff in H. tauto. Qed.
Lemma name_white c : name_char c = true -> white c = false.
Proof. unfold name_char. intros H. apply andb_true_iff in H. destruct H as [H _]. apply andb_true_iff in H. destruct H as [H _]. apply negb_true_iff, H. Qed.
Lemma name_has q s : name_char q = false -> forallb name_char s = true -> has q s = false.
Proof.
  intros Hq. induction s as [|c s IH]; cbn [forallb has existsb]; [reflexivity|]. rewrite andb_true_iff. intros [H1 H2].
  destruct (Ascii.eqb_spec q c) as [->|]; [congruence|]. apply IH, H2.
Qed.
Lemma name_nul s : forallb name_char s = true -> nul_free s.
Proof.
  intros H I. apply in_split in I. destruct I as (a & b & ->). pose proof (name_forall _ H a NUL b eq_refl). discriminate.
Qed.
Lemma white_not_nul c : white c = true -> c <> NUL.
Proof. intros H ->. discriminate. Qed.

(** ** reading processing instructions *)
Lemma stop_pi_name c s : name_char c = true -> stop_at [s2b " ?>"; s2b "?>"; s2b " "] (c :: s) = None.
Proof.
  intros H. unfold stop_at. cbn [existsb]. change (ws_chunk (s2b " ?>")) with false. change (ws_chunk (s2b "?>")) with false.
  change (ws_chunk (s2b " ")) with true. cbn [orb andb]. rewrite is_ws_white, (name_white _ H). cbn [hit].
  change (ws_chunk (s2b " ?>")) with false. change (ws_chunk (s2b "?>")) with false. change (ws_chunk (s2b " ")) with true. cbv iota.
  change (s2b " ?>") with [" "; "?"; ">"]%char. change (s2b "?>") with ["?"; ">"]%char. cbn [after].
  destruct (Ascii.eqb_spec " " c) as [<-|]; [discriminate|]. destruct (Ascii.eqb_spec "?" c) as [<-|]; [discriminate|]. reflexivity.
Qed.
Lemma until_target_bare n s : forallb name_char n = true ->
  until [s2b " ?>"; s2b "?>"; s2b " "] (n ++ s2b "?>" ++ s) = Some (n, 1, s2b "?>" ++ s, s).
Proof.
  intros H. rewrite (until_after _ n (s2b "?>" ++ s) ([], 1, s2b "?>" ++ s, s)).
  - rewrite app_nil_r. reflexivity.
  - intros a c b ->. apply stop_pi_name. eapply name_forall; [exact H|reflexivity].
  - rewrite (until_here _ _ 1 2); [reflexivity|reflexivity|discriminate].
Qed.
Lemma until_target n w s : forallb name_char n = true -> white w = true ->
  until [s2b " ?>"; s2b "?>"; s2b " "] (n ++ [w] ++ s) = Some (n, 2, w :: s, s).
Proof.
  intros H Hw. cbn [app]. rewrite (until_after _ n (w :: s) ([], 2, w :: s, s)).
  - rewrite app_nil_r. reflexivity.
  - intros a c b ->. apply stop_pi_name. eapply name_forall; [exact H|reflexivity].
  - rewrite (until_here _ _ 2 1); [reflexivity| |discriminate].
    unfold stop_at. rewrite is_ws_white, Hw. reflexivity.
Qed.
Lemma last_app_nonnil {A} (a b : list A) d : b <> [] -> last (a ++ b) d = last b d.
Proof. intros H. induction a as [|x a IH]; [reflexivity|]. cbn [app]. destruct (a ++ b) eqn:E; [destruct a; [contradiction|discriminate]|]. cbn [last]. exact IH. Qed.
Lemma until_pi_content c s : is_pi_content c ->
  until [s2b " ?>"; s2b "?>"] (c ++ s2b "?>" ++ s) = Some (c, 1, s2b "?>" ++ s, s).
Proof.
  intros (_ & O & L). rewrite (until_after _ c (s2b "?>" ++ s) ([], 1, s2b "?>" ++ s, s)).
  - rewrite app_nil_r. reflexivity.
  - intros a x b ->. rewrite last_app_nonnil in L by discriminate.
    unfold stop_at. change (existsb ws_chunk _) with false. cbn [andb hit].
    change (ws_chunk (s2b " ?>")) with false. change (ws_chunk (s2b "?>")) with false. cbv iota.
    change (s2b " ?>") with [" "; "?"; ">"]%char. change (s2b "?>") with ["?"; ">"]%char. cbn [after app].
    assert (X : after ["?"; ">"]%char (x :: b ++ "?"%char :: ">"%char :: s) = None).
    { cbn [after]. destruct (Ascii.eqb_spec "?" x) as [<-|]; [|reflexivity]. destruct b as [|y b]; cbn [app].
      - reflexivity.
      - destruct (Ascii.eqb_spec ">" y) as [<-|]; [|reflexivity]. exfalso. apply O. exists a, b. reflexivity. }
    cbn [after] in X. rewrite X.
    destruct (Ascii.eqb_spec " " x) as [<-|]; [|reflexivity]. destruct b as [|y b]; cbn [app].
    { exfalso. apply L. reflexivity. }
    destruct (Ascii.eqb_spec "?" y) as [<-|]; [|reflexivity]. destruct b as [|z b]; cbn [app].
    { reflexivity. }
    destruct (Ascii.eqb_spec ">" z) as [<-|]; [|reflexivity]. exfalso. apply O. exists (a ++ [" "%char]), b.
    rewrite <- app_assoc. reflexivity.
  - rewrite (until_here _ _ 1 2); [reflexivity|reflexivity|discriminate].
Qed.
