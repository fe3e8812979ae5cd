From Verif Require Import Prelude DtdModel DtdSpec DtdProofs DtdDocModel DtdDocSpec.
Open Scope nat_scope.
Open Scope list_scope.

Lemma psize_pos p : 0 < psize p. Proof. destruct p; cbn; lia. Qed.
Lemma sum_rev l : list_sum (map psize (rev l)) = list_sum (map psize l).
Proof. induction l as [|p l IH]; [reflexivity|]. cbn [rev map]. rewrite map_app, list_sum_app, IH. cbn [map]. unfold list_sum at 2 3. cbn [fold_right]. fold (list_sum (map psize l)). lia. Qed.
Lemma sum_app l r : list_sum (map psize (l ++ r)) = list_sum (map psize l) + list_sum (map psize r).
Proof. rewrite map_app. apply list_sum_app. Qed.
Lemma parent_loop_spec fuel : forall stack x, list_sum (map psize stack) < fuel ->
  exists b, parent_loop fuel stack x = Ok b /\ (b = true <-> In x (flat_map names_in stack)).
Proof.
  induction fuel as [|fuel IH]; intros stack x L; [lia|]. cbn [parent_loop]. destruct stack as [|[y t|ty t ps] stack].
  - exists false. split; [reflexivity|]. split; [discriminate|intros []].
  - cbn [map psize list_sum fold_right] in L. change (1 + list_sum (map psize stack) < S fuel) in L.
    cbn [flat_map names_in app]. destruct (bytes_eqb y x) eqn:E.
    + apply bytes_eqb_eq in E. subst. exists true. split; [reflexivity|]. split; [left; reflexivity|reflexivity].
    + destruct (IH stack x ltac:(lia)) as (b & B1 & B2). exists b. split; [exact B1|]. rewrite B2. split; [right; assumption|].
      intros [->|H]; [rewrite bytes_eqb_refl in E; discriminate|exact H].
  - change (S (list_sum (map psize ps)) + list_sum (map psize stack) < S fuel) in L.
    destruct (IH (rev ps ++ stack) x) as (b & B1 & B2); [rewrite sum_app, sum_rev; lia|]. exists b. split; [exact B1|].
    rewrite B2, flat_map_app. cbn [flat_map names_in]. rewrite !in_app_iff. rewrite !in_flat_map.
    split; (intros [(p & P1 & P2)|H]; [left; exists p; split; [apply in_rev; rewrite ?rev_involutive; exact P1|exact P2]|right; exact H]).
Qed.
Definition fits (pfuel : nat) (e : el_decl) : Prop := forall p, el_list e = Some p -> psize p <= pfuel.
Lemma is_parent_spec pfuel e f : fits pfuel e -> exists b, is_parent pfuel e f = Ok b /\ (b = true <-> mentions e f).
Proof.
  intro F. unfold is_parent, mentions. destruct (el_list e) as [[x t|ty t ps]|] eqn:E.
  - exists false. split; [reflexivity|]. split; [discriminate|]. intros (p & H & N & _). injection H as <-. discriminate.
  - specialize (F _ E). cbn [psize] in F. destruct (parent_loop_spec pfuel (rev ps) (el_name f)) as (b & B1 & B2); [rewrite sum_rev; lia|].
    exists b. split; [exact B1|]. rewrite B2, in_flat_map. split.
    + intros (p & P1 & P2). exists (Group ty t ps). split; [reflexivity|]. split; [reflexivity|]. cbn [names_in]. apply in_flat_map. exists p. split; [apply in_rev; exact P1|exact P2].
    + intros (p & H & _ & I1). injection H as <-. cbn [names_in] in I1. apply in_flat_map in I1. destruct I1 as (p & P1 & P2). exists p. split; [apply -> in_rev; exact P1|exact P2].
  - exists false. split; [reflexivity|]. split; [discriminate|]. intros (p & H & _). discriminate.
Qed.
(** one pass: either nothing mentions the candidate, or it moves up *)
Lemma root_pass_spec pfuel all (rank : el_decl -> nat) : (forall e f, In e all -> In f all -> mentions e f -> rank f < rank e) ->
  forall l r ch, incl l all -> In r all -> (forall e, In e all -> fits pfuel e) ->
  exists r' ch', root_pass pfuel l r ch = Ok (r', ch') /\ In r' all /\
    ((ch' = ch /\ r' = r /\ (forall e, In e l -> ~ mentions e r)) \/ (ch' = true /\ rank r < rank r')).
Proof.
  intros M. induction l as [|e l IH]; intros r ch Il Ir F; cbn [root_pass].
  - exists r, ch. split; [reflexivity|]. split; [exact Ir|]. left. split; [reflexivity|]. split; [reflexivity|intros e []].
  - assert (Ie : In e all) by (apply Il; left; reflexivity). assert (Il' : incl l all) by (intros y Hy; apply Il; right; exact Hy).
    destruct (is_parent_spec pfuel e r (F e Ie)) as (b & B1 & B2). rewrite B1. cbn [bind]. destruct b.
    + assert (Mr : mentions e r) by (apply B2; reflexivity). destruct (IH e true Il' Ie F) as (r' & ch' & E & I1 & H).
      exists r', ch'. split; [exact E|]. split; [exact I1|]. right. pose proof (M e r Ie Ir Mr).
      destruct H as [(-> & -> & _)|(-> & H)]; (split; [reflexivity|lia]).
    + destruct (IH r ch Il' Ir F) as (r' & ch' & E & I1 & H). exists r', ch'. split; [exact E|]. split; [exact I1|].
      destruct H as [(H1 & H2 & H)|H]; [|right; exact H]. left. split; [exact H1|]. split; [exact H2|].
      intros y [<-|Hy]; [|apply H; exact Hy]. intro X. apply B2 in X. discriminate.
Qed.
Lemma root_loop_ends pfuel l rank bound : (forall e f, In e l -> In f l -> mentions e f -> rank f < rank e) -> (forall e, In e l -> rank e <= bound) ->
  (forall e, In e l -> fits pfuel e) -> forall fuel r, In r l -> bound - rank r < fuel ->
  exists r', root_loop fuel pfuel l r = Ok r' /\ In r' l /\ forall e, In e l -> ~ mentions e r'.
Proof.
  intros M B F. induction fuel as [|fuel IH]; intros r Ir L; [lia|]. cbn [root_loop].
  destruct (root_pass_spec pfuel l rank M l r false (incl_refl l) Ir F) as (r1 & ch & E & I1 & H). rewrite E. cbn [bind].
  destruct H as [(-> & -> & H)|(-> & H)]; [exists r; auto|]. apply IH; [exact I1|]. pose proof (B r1 I1). lia.
Qed.
Lemma bounded {A} (f : A -> nat) l : exists b, forall x, In x l -> f x <= b.
Proof.
  induction l as [|a l [b IH]]; [exists 0; intros x []|]. exists (f a + b). intros x [<-|H]; [lia|]. specialize (IH x H). lia.
Qed.
Lemma new_root_ends l : l <> [] -> acyclic l -> exists n, forall fuel pfuel, n <= fuel -> n <= pfuel ->
  exists r, new_root fuel pfuel l = Ok r /\ In r l /\ forall e, In e l -> ~ mentions e r.
Proof.
  intros Ne (rank & M). destruct (bounded rank l) as [b1 B1]. destruct (bounded (fun e => match el_list e with Some p => psize p | None => 0 end) l) as [b2 B2].
  exists (S b1 + b2). intros fuel pfuel L1 L2. destruct l as [|r0 l']; [congruence|]. unfold new_root.
  apply (root_loop_ends pfuel (r0 :: l') rank b1 M B1); [|left; reflexivity|lia].
  intros e He p Hp. specialize (B2 e He). cbv beta in B2. rewrite Hp in B2. lia.
Qed.
(** whenever it returns, the root is mentioned by no declaration *)
Lemma root_pass_top pfuel : forall l r ch r' ch', root_pass pfuel l r ch = Ok (r', ch') ->
  (forall e, In e l -> fits pfuel e) -> (ch = true -> ch' = true) /\ (ch' = false -> r' = r /\ forall e, In e l -> ~ mentions e r).
Proof.
  induction l as [|e l IH]; intros r ch r' ch' H F; cbn [root_pass] in H.
  - injection H as <- <-. split; [auto|]. intros _. split; [reflexivity|intros e []].
  - destruct (is_parent_spec pfuel e r (F e (or_introl eq_refl))) as (b & B1 & B2). rewrite B1 in H. cbn [bind] in H.
    assert (F' : forall e0, In e0 l -> fits pfuel e0) by (intros; apply F; right; assumption). destruct b.
    + destruct (IH _ _ _ _ H F') as [H1 H2]. specialize (H1 eq_refl). split; [auto|]. intro X. congruence.
    + destruct (IH _ _ _ _ H F') as [H1 H2]. split; [exact H1|]. intro X. destruct (H2 X) as [H3 H4]. split; [exact H3|].
      intros y [<-|Hy]; [|apply H4; exact Hy]. intro Y. apply B2 in Y. discriminate.
Qed.
Lemma root_pass_in pfuel all : forall l r ch r' ch', root_pass pfuel l r ch = Ok (r', ch') -> incl l all -> In r all -> In r' all.
Proof.
  induction l as [|e l IH]; intros r ch r' ch' H Il Ir; cbn [root_pass] in H; [injection H as <- <-; exact Ir|].
  destruct (is_parent pfuel e r) as [b| |]; cbn [bind] in H; try discriminate. assert (Il' : incl l all) by (intros y Hy; apply Il; right; exact Hy).
  destruct b; eapply IH; try eassumption. apply Il. left. reflexivity.
Qed.
Lemma new_root_top fuel pfuel l r : (forall e p, In e l -> el_list e = Some p -> psize p <= pfuel) -> new_root fuel pfuel l = Ok r ->
  In r l /\ forall e, In e l -> ~ mentions e r.
Proof.
  intros F H. destruct l as [|r0 l']; [discriminate|]. unfold new_root in H. set (all := r0 :: l') in *. assert (I0 : In r0 all) by (left; reflexivity). clearbody all.
  revert r0 I0 H. induction fuel as [|fuel IH]; intros r0 I0 H; [discriminate|]. cbn [root_loop] in H.
  destruct (root_pass pfuel all r0 false) as [[r1 ch]| |] eqn:E; cbn [bind] in H; try discriminate.
  assert (I1 : In r1 all) by (eapply root_pass_in; [exact E|apply incl_refl|exact I0]).
  destruct ch; [exact (IH r1 I1 H)|]. injection H as <-. split; [exact I1|].
  destruct (root_pass_top pfuel all r0 false r1 false E) as [_ H2]; [intros e He p Hp; eapply F; eassumption|]. destruct (H2 eq_refl) as [-> H3]. exact H3.
Qed.
(** a declaration that mentions itself *)
Lemma root_pass_stuck pfuel l r : is_parent pfuel r r = Ok true -> l = [r] -> forall ch, root_pass pfuel l r ch = Ok (r, true).
Proof. intros P -> ch. cbn [root_pass]. rewrite P. reflexivity. Qed.
Lemma root_stuck pfuel r fuel : is_parent pfuel r r = Ok true -> root_loop fuel pfuel [r] r = NoFuel.
Proof.
  intro P. induction fuel as [|fuel IH]; [reflexivity|]. cbn [root_loop]. rewrite (root_pass_stuck pfuel [r] r P eq_refl). cbn [bind]. exact IH.
Qed.

Lemma ent_eqb_spec a b : ent_eqb a b = true <-> a = b.
Proof. destruct a, b; split; intro H; try reflexivity; discriminate. Qed.
Lemma entity_first l name ty :
  match entity_lookup l name ty with
  | Some e => exists l1 l2, l = l1 ++ e :: l2 /\ entity_is name ty e /\ forall x, In x l1 -> ~ entity_is name ty x
  | None => forall x, In x l -> ~ entity_is name ty x
  end.
Proof.
  induction l as [|e l IH]; cbn [entity_lookup]; [intros x []|]. destruct (ent_eqb (en_type e) ty && bytes_eqb (en_name e) name) eqn:E.
  - apply andb_prop in E. destruct E as [E1 E2]. apply ent_eqb_spec in E1. apply bytes_eqb_eq in E2. exists [], l. split; [reflexivity|]. split; [split; assumption|intros x []].
  - assert (X : ~ entity_is name ty e). { intros [H1 H2]. rewrite <- H1, <- H2, bytes_eqb_refl in E. rewrite (proj2 (ent_eqb_spec _ _) eq_refl) in E. discriminate. }
    destruct (entity_lookup l name ty) as [x|].
    + destruct IH as (l1 & l2 & -> & H1 & H2). exists (e :: l1), l2. split; [reflexivity|]. split; [exact H1|]. intros y [<-|Hy]; [exact X|apply H2; exact Hy].
    + intros y [<-|Hy]; [exact X|apply IH; exact Hy].
Qed.
