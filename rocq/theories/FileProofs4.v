(** Regular files are parsed like their content, whatever their size. *)
From Verif Require Import Prelude StrModel StrSpec StrProofs StrProofs2 StrProofs3 StreamModel StreamProofs TreeModel ParseModel ParseProofs ParseProofs2 FileSpec FileProofs
  FileProofs2 FileProofs3.
Open Scope Z_scope.

Lemma ws_blanks g : forallb is_ws g = true <-> Forall blank g.
Proof. rewrite forallb_forall, Forall_forall. split; intros H c Hc; apply ws_blank, H, Hc. Qed.

Lemma regular_bare pre s content : regular content -> content = pre ++ s ->
  (forall u v, content = u ++ s2b "<?" ++ v -> (length u < length pre)%nat) -> bare s.
Proof.
  intros R E P. split; [|split; [|split]].
  - intros (u & v & Es). apply (reg_comment _ R (pre ++ u) v). rewrite E, Es, <- app_assoc. reflexivity.
  - intros (u & v & Es). apply (reg_cdata _ R (pre ++ u) v). rewrite E, Es, <- app_assoc. reflexivity.
  - intros (u & v & Es). assert (X : content = (pre ++ u) ++ s2b "<?" ++ v) by (rewrite E, Es, <- app_assoc; reflexivity).
    apply P in X. rewrite app_length in X. lia.
  - intros u v Es w c r Ev N W C. apply (reg_text _ R (pre ++ u) w c r); [|exact N|apply ws_blanks, W|].
    + rewrite E, Es, Ev, <- app_assoc. reflexivity.
    + intros B. apply ws_blank in B. congruence.
Qed.
Lemma bom_same : BOM = bom. Proof. reflexivity. Qed.

Lemma file_regular content : regular content -> doc_parse_file content = doc_parse content.
Proof.
  intros R. rewrite parse_ok.
  assert (T : tail_ws content).
  { destruct (reg_end _ R) as (b & w & E & W). right. exists b, w. split; [exact E|apply ws_blank, W]. }
  assert (Pre : exists pre, content = pre ++ rest_of content BOM /\ (pre = [] \/ pre = BOM) /\ (pre = [] -> after BOM content = None)).
  { unfold rest_of. destruct (after BOM content) as [r|] eqn:A.
    - apply after_Some in A. exists BOM. split; [exact A|]. split; [auto|discriminate].
    - exists []. auto. }
  destruct Pre as (pre & Ec & Hp & Hn).
  destruct (Nat.le_gt_cases 2 (length (rest_of content BOM))) as [L|L].
  - apply large_ok; [exact T|exact L|]. set (s := rest_of content BOM) in *. clearbody s.
    destruct (after (s2b "<?") s) as [r|] eqn:A.
    + apply after_Some in A. split.
      * apply (regular_bare (pre ++ s2b "<?") r content R); [rewrite Ec, A, <- app_assoc; reflexivity|].
        intros u v Eu. destruct (reg_pi _ R u v Eu) as [[->| ->] _]; rewrite app_length; cbn [length s2b].
        -- simpl. lia.
        -- destruct Hp as [->| ->]; [|cbn; lia]. exfalso. specialize (Hn eq_refl). rewrite bom_same, Eu, after_app in Hn. discriminate.
      * rewrite Ec in R. destruct (reg_pi _ R pre r) as [_ D]; [rewrite A; reflexivity|].
        destruct D as (g & g' & q & x & E & G & G' & Q). change (s2b "<?xml") with (s2b "<?" ++ s2b "xml") in E.
        rewrite <- app_assoc in E. apply app_inv_head in E.
        exists g, g', ([q] ++ s2b "1.0" ++ [q]), x. split; [rewrite E, <- !app_assoc; reflexivity|].
        split; [apply ws_blanks, G|]. split; [apply ws_blanks, G'|]. destruct Q as [->| ->]; [left|right]; reflexivity.
    + apply (regular_bare pre s content R Ec).
      intros u v Eu. destruct (reg_pi _ R u v Eu) as [Hu _].
      assert (N : u <> pre).
      { intros ->. rewrite Ec in Eu. apply app_inv_head in Eu. rewrite Eu, after_app in A. discriminate. }
      rewrite <- bom_same in Hu. destruct Hu as [->| ->], Hp as [->| ->]; try contradiction; try (cbn; lia).
      specialize (Hn eq_refl). rewrite Eu, after_app in Hn. discriminate.
  - set (s := rest_of content BOM) in *. clearbody s.
    apply parse_file_ok.
    + intros u w c v E W C N. exfalso. rewrite E in T. change (w :: c :: v) with ([w] ++ c :: v) in T.
      apply tail_ws_suffix in T. apply tail_ws_suffix in T.
      assert (v <> []).
      { intros ->. destruct T as [T|(a & x & Ex & Wx)]; [discriminate|]. destruct a as [|? [|]]; inversion Ex; subst. congruence. }
      rewrite E in Ec. apply (f_equal (@length _)) in Ec as El. rewrite !app_length in El. cbn [length] in El.
      destruct v as [|y v]; [contradiction|]. cbn [length] in El.
      destruct Hp as [->| ->]; cbn [length] in El; [lia|]. change (length BOM) with 3%nat in El.
      destruct u as [|? [|]]; cbn [length] in El; try lia; cbn in Ec; inversion Ec; subst; discriminate.
    + rewrite Ec, app_length. assert (length pre <= 3)%nat by (destruct Hp as [->| ->]; cbn; lia). unfold buffer_size. lia.
Qed.

(** ** a test for regular contents *)
Definition text_ok (s : bytes) : bool :=
  match s with
  | c :: v =>
    if Ascii.eqb c ">" then
      match v with
      | w :: _ => if is_ws w then match skip v with [] => true | x :: _ => Ascii.eqb x "<" end else true
      | [] => true
      end
    else true
  | [] => true
  end.
Fixpoint scan (s : bytes) : bool :=
  negb (match after (s2b "<!--") s with Some _ => true | None => false end) &&
  negb (match after (s2b "<![CDATA[") s with Some _ => true | None => false end) && text_ok s &&
  match s with [] => true | _ :: r => scan r end.
Fixpoint no_pi (s : bytes) : bool :=
  negb (match after (s2b "<?") s with Some _ => true | None => false end) && match s with [] => true | _ :: r => no_pi r end.
Lemma scan_suffix u s : scan (u ++ s) = true -> scan s = true.
Proof. induction u as [|c u IH]; [auto|]. intros H. apply IH. cbn [app scan] in H. apply andb_true_iff in H. apply H. Qed.
Lemma no_pi_suffix u s : no_pi (u ++ s) = true -> no_pi s = true.
Proof. induction u as [|c u IH]; [auto|]. intros H. apply IH. cbn [app no_pi] in H. apply andb_true_iff in H. apply H. Qed.
Lemma scan_head s : scan s = true -> after (s2b "<!--") s = None /\ after (s2b "<![CDATA[") s = None /\ text_ok s = true.
Proof.
  intros H. assert (X : negb (match after (s2b "<!--") s with Some _ => true | None => false end) &&
    negb (match after (s2b "<![CDATA[") s with Some _ => true | None => false end) && text_ok s = true)
    by (destruct s; apply andb_true_iff in H; apply H).
  apply andb_true_iff in X. destruct X as [X ->]. apply andb_true_iff in X. destruct X as [X Y].
  destruct (after (s2b "<!--") s); [discriminate|]. destruct (after (s2b "<![CDATA[") s); [discriminate|]. auto.
Qed.
Lemma regular_test content body w head rest : content = body ++ [w] -> blank w -> scan content = true ->
  content = head ++ rest -> declares_version content -> length head = 2%nat -> no_pi rest = true -> regular content.
Proof.
  intros E W Sc Eh D Lh Np. constructor.
  - eauto.
  - intros u v ->. apply scan_suffix, scan_head in Sc. destruct Sc as [Sc _]. rewrite after_app in Sc. discriminate.
  - intros u v ->. apply scan_suffix, scan_head in Sc. destruct Sc as [_ [Sc _]]. rewrite after_app in Sc. discriminate.
  - intros u v Eu. destruct D as (g & g' & q & x & Ex & G). assert (D : declares_version content) by (exists g, g', q, x; auto).
    assert (u = []) as ->.
    { destruct u as [|a [|b u]]; [reflexivity| |].
      - rewrite Eu in Ex. discriminate Ex.
      - exfalso. destruct head as [|h1 [|h2 [|]]]; try discriminate Lh. rewrite Eu in Eh. cbn [app] in Eh. inversion Eh; subst rest.
        apply no_pi_suffix in Np. change (no_pi (s2b "<?" ++ v)) with false in Np. discriminate. }
    split; [auto|]. cbn [app] in Eu. rewrite Eu in D. exact D.
  - intros u g c v Ec N G C. rewrite Ec in Sc. apply scan_suffix, scan_head in Sc. destruct Sc as [_ [_ Sc]].
    destruct g as [|g0 g]; [contradiction|]. change (s2b ">") with [">"%char] in Sc. cbn [app text_ok] in Sc.
    change (Ascii.eqb ">" ">") with true in Sc. cbv iota in Sc.
    pose proof (Forall_inv G) as G0. apply ws_blank in G0. rewrite G0 in Sc.
    rewrite app_comm_cons, skip_over in Sc.
    + apply Ascii.eqb_eq in Sc. exact Sc.
    + apply ws_blanks, G.
    + destruct (is_ws c) eqn:Wc; [|reflexivity]. destruct C. apply ws_blank, Wc.
Qed.
