From Verif Require Import Prelude StrModel StrProofs StreamModel StreamProofs TreeModel ParseModel ParseProofs ParseProofs2 FileSpec.
Open Scope Z_scope.

Lemma ws_blank c : is_ws c = true <-> blank c.
Proof.
  unfold is_ws, blank. split.
  - destruct c as [[] [] [] [] [] [] [] []]; vm_compute; intros H; try discriminate; auto 10.
  - intros [<-|[<-|[<-|[<-|[]]]]]; reflexivity.
Qed.
Lemma forall_blank w : forallb is_ws w = true -> Forall blank w.
Proof. intros H. apply Forall_forall. intros x Hx. apply ws_blank. rewrite forallb_forall in H. auto. Qed.
Definition of_file (content : bytes) : settled content -> ctx.
Proof.
  intros H.
  refine (Ctx False (fun s => ends_in content s) (fun s => match s with [] => True | c :: _ => is_ws c = false end \/ ends_in content (">"%char :: s)) _ _ _ _ _).
  - intros a s [b ->]. exists (b ++ a). rewrite app_assoc. reflexivity.
  - intros a s [[]|[b ->]]. right. exists (b ++ a). rewrite app_assoc. reflexivity.
  - intros c s W. left. exact W.
  - left. exact I.
  - intros u w c v _ [P|[a P]] W Wc N.
    + exfalso. rewrite forallb_app in W. apply andb_true_iff in W. destruct W as [W1 W2].
      destruct u as [|u0 u]; cbn in *; [rewrite P in W2; discriminate|rewrite P in W1; discriminate].
    + apply (H a (u ++ [w]) c v).
      * rewrite P. cbn [app s2b]. rewrite <- app_assoc. reflexivity.
      * destruct u; discriminate.
      * apply forall_blank, W.
      * intros B. apply ws_blank in B. congruence.
      * exact N.
Defined.
Lemma file_same content : fits content -> settled content -> doc_parse_file content = doc_parse content.
Proof.
  intros F C. rewrite parse_ok. apply (parse_file_ok (cx := of_file content C)); [exists []; reflexivity|].
  unfold fits in F. unfold buffer_size. lia.
Qed.

(** ** a test for settled contents *)
Definition text_far (s : bytes) : bool :=
  match s with
  | c :: (w :: _) as v =>
    if Ascii.eqb c ">" && is_ws w then
      match skip v with [] => true | x :: r => Ascii.eqb x "<" || Nat.leb 8 (length r) end
    else true
  | _ => true
  end.
Fixpoint settle_test (s : bytes) : bool := text_far s && match s with [] => true | _ :: r => settle_test r end.
Lemma settle_suffix u s : settle_test (u ++ s) = true -> settle_test s = true.
Proof. induction u as [|c u IH]; [auto|]. intros H. apply IH. cbn [app settle_test] in H. apply andb_true_iff in H. apply H. Qed.
Lemma skip_gap g s : forallb is_ws g = true -> (match s with [] => True | c :: _ => is_ws c = false end) -> skip (g ++ s) = s.
Proof.
  intros G H. induction g as [|c g IH]; cbn [app skip].
  - destruct s; [reflexivity|]. cbn. rewrite H. reflexivity.
  - cbn [forallb] in G. apply andb_true_iff in G. destruct G as [-> G]. apply IH, G.
Qed.
Lemma settled_test content : settle_test content = true -> settled content.
Proof.
  intros H u g c v -> N G C Nc. apply settle_suffix in H. destruct g as [|g0 g]; [contradiction|].
  change (s2b ">") with [">"%char] in H. cbn [app settle_test] in H. apply andb_true_iff in H. destruct H as [H _].
  unfold text_far in H. change (Ascii.eqb ">" ">") with true in H.
  pose proof (Forall_inv G) as G0. apply ws_blank in G0. rewrite G0 in H. cbn [andb] in H.
  rewrite app_comm_cons, skip_gap in H.
  - destruct (Ascii.eqb_spec c "<"); [contradiction|]. cbn [orb] in H. apply Nat.leb_le in H. exact H.
  - apply forallb_forall. intros x Hx. apply ws_blank. rewrite Forall_forall in G. auto.
  - destruct (is_ws c) eqn:Wc; [|reflexivity]. destruct C. apply ws_blank, Wc.
Qed.
