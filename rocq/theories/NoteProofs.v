From Coq Require Import Permutation.
From Verif Require Import Prelude HashModel HashSpec HashExec HashProofs HashStrProofs EscModel EscProofs EqModel EqProofs ItemModel ItemSpec ItemExec ItemProofs ItemProofs7 NoteModel NoteSpec NoteExec.
Open Scope list_scope.
Open Scope nat_scope.

(** ** a node that is never attached has no holder *)
Definition bare (h : heap) (n : nat) : Prop := forall nd, h_nodes h n = Some nd -> n_holder nd = None.
Lemma bare_wr_i h a f h' n : wr_i h a f = Ok h' -> bare h n -> bare h' n.
Proof. unfold wr_i, rd_i. destruct (h_items h a); cbn; [|discriminate]. intro H. injection H as <-. auto. Qed.
Lemma bare_wr_n h a f h' n : (forall nd, n_holder (f nd) = n_holder nd) -> wr_n h a f = Ok h' -> bare h n -> bare h' n.
Proof.
  unfold wr_n, rd_n. intro Hf. destruct (h_nodes h a) as [x|] eqn:E; cbn; [|discriminate]. intros H B. injection H as <-. intros nd. cbn. unfold upd.
  destruct (Nat.eqb_spec n a) as [->|]; [|apply B]. intro X. injection X as <-. rewrite Hf. apply B. exact E.
Qed.
Lemma bare_holder h a x h' n : n <> a -> wr_n h a (w_holder x) = Ok h' -> bare h n -> bare h' n.
Proof.
  unfold wr_n, rd_n. intro Hn. destruct (h_nodes h a) as [y|] eqn:E; cbn; [|discriminate]. intros H B. injection H as <-. intros nd. cbn. unfold upd.
  destruct (Nat.eqb_spec n a) as [->|]; [contradiction|apply B].
Qed.
Lemma bare_holder_none h a h' n : wr_n h a (w_holder None) = Ok h' -> bare h n -> bare h' n.
Proof.
  unfold wr_n, rd_n. destruct (h_nodes h a) as [y|] eqn:E; cbn; [|discriminate]. intros H B. injection H as <-. intros nd. cbn. unfold upd.
  destruct (Nat.eqb_spec n a) as [->|]; [|apply B]. intro X. injection X as <-. reflexivity.
Qed.
Lemma bare_new_item h n : bare h n -> bare (fst (new_item h)) n.
Proof. auto. Qed.
Lemma bare_new_node h n : bare h n -> bare (fst (new_node h)) n.
Proof. intros B nd. cbn. unfold upd. destruct (Nat.eqb n (h_nfresh h)); [|apply B]. intro X. injection X as <-. reflexivity. Qed.

Ltac step H :=
  match type of H with
  | bind ?e _ = Ok _ => let E := fresh "E" in destruct e eqn:E; cbn [bind] in H; [|discriminate H|discriminate H]
  | (let '(_, _) := ?p in _) = Ok _ => destruct p eqn:?
  | (if ?b then _ else _) = Ok _ => destruct b eqn:?
  | match ?o with _ => _ end = Ok _ => destruct o eqn:?
  | Ok _ = Ok _ => injection H as H; subst
  | UB = Ok _ => discriminate H
  | NoFuel = Ok _ => discriminate H
  end.
Ltac steps := repeat match goal with H : ?e = Ok _ |- _ =>
  match e with bind _ _ => step H | (if _ then _ else _) => step H | match _ with _ => _ end => step H | Ok _ => step H end end.
Ltac bare1 :=
  first [assumption
  | match goal with
    | H : wr_i _ _ _ = Ok ?h |- bare ?h _ => eapply bare_wr_i; [exact H|]
    | H : wr_n _ _ (w_first _) = Ok ?h |- bare ?h _ => eapply bare_wr_n; [|exact H|]; [reflexivity|]
    | H : wr_n _ _ (w_last _) = Ok ?h |- bare ?h _ => eapply bare_wr_n; [|exact H|]; [reflexivity|]
    | H : wr_n _ _ (w_holder None) = Ok ?h |- bare ?h _ => eapply bare_holder_none; [exact H|]
    | H : wr_n _ _ (w_holder _) = Ok ?h |- bare ?h _ => eapply bare_holder; [|exact H|]; [assumption|]
    | H : match ?o with Some _ => _ | None => new_item _ end = (?h', _) |- bare ?h' _ => destruct o; [injection H as <- <-|]
    | H : new_item ?h = (?h', _) |- bare ?h' _ => replace h' with (fst (new_item h)) by (rewrite H; reflexivity); apply bare_new_item
    end].
Lemma bare_configure h k d h' i n : is_node k = false \/ n <> d -> common_configure h k d = Ok (h', i) -> bare h n -> bare h' n.
Proof.
  intros Hk H B. unfold common_configure in H. destruct Hk as [Hk|Hk].
  - rewrite Hk in H. cbn [bind] in H. steps. repeat bare1.
  - destruct (is_node k); steps; repeat bare1.
Qed.
Lemma bare_child_ref h p i h' n : set_child_ref h p i = Ok h' -> bare h n -> bare h' n.
Proof. intros H B. unfold set_child_ref in H. steps; repeat bare1. Qed.
Lemma bare_unlink h i e h' n : unlink h i e = Ok h' -> bare h n -> bare h' n.
Proof. intros H B. unfold unlink in H. steps; repeat bare1. Qed.
Lemma bare_transfer fuel : forall h q i h' n, transfer_loop fuel h q i = Ok h' -> bare h n -> bare h' n.
Proof.
  induction fuel as [|fuel IH]; intros h q [i|] h' n H B; cbn [transfer_loop] in H; try discriminate; steps; auto.
  eapply IH; [exact H|]. eapply bare_child_ref; eassumption.
Qed.
Lemma bare_transfer_after fuel : forall h q aux i h' j n, transfer_after_loop fuel h q aux i = Ok (h', j) -> bare h n -> bare h' n.
Proof.
  induction fuel as [|fuel IH]; intros h q aux i h' j n H B; cbn [transfer_after_loop] in H; try discriminate.
  steps; try (repeat bare1; fail). eapply IH; [exact H|]. repeat bare1.
Qed.
Lemma eqc_node n c : eqc (KNode, n) c = false -> is_node (fst c) = false \/ n <> snd c.
Proof. destruct c as [[] d]; cbn; auto. intro H. right. apply Nat.eqb_neq. exact H. Qed.
Lemma bare_exec h o h' n : attaches (NTree o) n = false -> exec h o = Ok h' -> bare h n -> bare h' n.
Proof.
  intros A H B. destruct o as [|p [k d]|p k c|r x|x|x y|p k|p k c|p q|p q k]; cbn [exec attaches] in *.
  - injection H as <-. apply bare_new_node. exact B.
  - assert (H' : item_set_child h p k d = Ok h') by (destruct k; exact H). clear H. unfold item_set_child in H'. steps.
    eapply bare_child_ref; [exact H'|]. eapply bare_configure; [|eassumption|exact B]. exact (eqc_node n (k, d) A).
  - steps. unfold item_set_after in H. steps; repeat (first [bare1 | eapply bare_configure; [|eassumption|]; [exact (eqc_node n c A)|]]).
  - apply Nat.eqb_neq in A. unfold node_set_child_after, item_set_after in H. steps; repeat (first [bare1 | eapply bare_configure; [|eassumption|]; [right; exact A|]]).
  - unfold node_remove in H. steps; try assumption; eapply bare_unlink; eassumption.
  - apply Nat.eqb_neq in A. unfold node_replace in H. steps; repeat bare1.
  - unfold item_remove in H. steps. eapply bare_unlink; eassumption.
  - apply eqc_node in A. unfold item_new_ref, item_replace in H. destruct c as [kd d]. cbn [fst snd] in *. destruct A as [A|A].
    + rewrite A in H. steps; repeat bare1.
    + destruct (is_node kd); steps; repeat bare1.
  - unfold transfer_childs in H. steps. repeat first [bare1 | eapply bare_transfer; [eassumption|]].
  - unfold transfer_childs_after in H. steps; repeat first [bare1 | eapply bare_transfer_after; [eassumption|]].
Qed.

(** ** the annotations of one node *)
Definition shrep := hrep bytes (option note) handler shash skeq.
Definition found (fm : fmap bytes (option note) handler) (k : bytes) : option note :=
  match m_find _ _ _ skeq fm k with Some e => e_data e | None => None end.
Lemma skeq_bytes a b : skeq a b = bytes_eqb a b.
Proof.
  destruct (bytes_eqb a b) eqn:E.
  - apply bytes_eqb_eq in E. subst. apply skeq_spec. reflexivity.
  - destruct (skeq a b) eqn:F; [|reflexivity]. apply skeq_spec in F. apply bytes_eqb_eq in F. congruence.
Qed.
Lemma find_filter {A} (f g : A -> bool) l : (forall x, f x = true -> g x = true) -> find f (filter g l) = find f l.
Proof.
  intro H. induction l as [|x l IH]; [reflexivity|]. cbn [filter find]. destruct (g x) eqn:G; cbn [find].
  - rewrite IH. reflexivity.
  - destruct (f x) eqn:Fx; [apply H in Fx; congruence|exact IH].
Qed.
Lemma found_put fm e k : found (m_put _ _ _ skeq fm e) k = if bytes_eqb k (e_key e) then e_data e else found fm k.
Proof.
  unfold found, m_put, m_find, m_del. cbn [find]. rewrite skeq_bytes. destruct (bytes_eqb (e_key e) k) eqn:E.
  - apply bytes_eqb_eq in E. subst k. rewrite (proj2 (bytes_eqb_eq _ _) eq_refl). reflexivity.
  - assert (E' : bytes_eqb k (e_key e) = false).
    { destruct (bytes_eqb k (e_key e)) eqn:X; [|reflexivity]. apply bytes_eqb_eq in X. symmetry in X. apply bytes_eqb_eq in X. congruence. }
    rewrite E'. rewrite find_filter; [reflexivity|]. intros x Hx. apply negb_true_iff. apply skeq_spec in Hx. rewrite skeq_bytes. rewrite Hx. exact E'.
Qed.
Lemma get_found h fm k : shrep h fm -> hash_get bytes (option note) handler shash skeq None h k = Ok (found fm k).
Proof.
  intro R. unfold hash_get. destruct (lookup_spec _ _ _ _ _ str_key_ok h fm k R) as (o & E & F & _). unfold found. rewrite F, E. cbn [bind].
  destruct (Z.eqb_spec (HashModel.h_items _ _ _ h) 0) as [Z|Z]; [|destruct o; reflexivity].
  destruct o as [x|]; [|reflexivity]. exfalso. rewrite (hr_items _ _ _ _ _ _ _ R) in Z.
  pose proof (hr_perm _ _ _ _ _ _ _ R) as P. destruct (concat (table _ _ _ h)) as [|y l]; [|cbn in Z; lia].
  cbn in P. apply Permutation_nil in P. subst. discriminate.
Qed.

(** ** everything *)
Record nrep (t : nheap) (s : fam) (m : store) (ch : chain) : Prop := {
  nr_tree : Rep (nh_heap t) s ch;
  nr_none : forall n, nh_notes t n = None -> forall k, m n k = None;
  nr_some : forall n a, nh_notes t n = Some a -> exists fm, shrep a fm /\ forall k, m n k = found fm k
}.
Lemma nrep_new : nrep nheap_new fam_new no_notes (fun _ => []).
Proof. split; [apply rep_new|reflexivity|discriminate]. Qed.
Lemma note_of_ok t s m ch n k : nrep t s m ch -> note_of t n k = Ok (m n k).
Proof.
  intro R. unfold note_of. destruct (nh_notes t n) as [a|] eqn:E.
  - destruct (nr_some _ _ _ _ R n a E) as (fm & Ra & Hm). rewrite (get_found a fm k Ra), Hm. reflexivity.
  - rewrite (nr_none _ _ _ _ R n E). reflexivity.
Qed.
Lemma known_node t s m ch n : nrep t s m ch -> known s n = true -> exists nd, rd_n (nh_heap t) n = Ok nd.
Proof.
  intros R K. apply rep_known in K. destruct (rep_node _ _ _ (nr_tree _ _ _ _ R) n K) as (nd & E). exists nd. unfold rd_n. rewrite E. reflexivity.
Qed.
Lemma annotate_ok t s m ch n k kd v dd : nrep t s m ch -> known s n = true ->
  exists t', annotate_data_full t n k kd v dd = Ok t' /\ nrep t' s (put_note m n k v) ch /\ nh_heap t' = nh_heap t.
Proof.
  intros R K. unfold annotate_data_full. destruct (known_node _ _ _ _ n R K) as (nd & E). rewrite E. cbn [bind].
  assert (I : exists fm, shrep (init_annotation t n) fm /\ forall k, m n k = found fm k).
  { unfold init_annotation. destruct (nh_notes t n) as [a|] eqn:En; [exact (nr_some _ _ _ _ R n a En)|].
    exists []. split; [apply hrep_new; lia|]. intro k0. rewrite (nr_none _ _ _ _ R n En). reflexivity. }
  destruct I as (fm & Ra & Hm). destruct (insert_spec _ _ _ _ _ str_key_ok _ fm k kd v dd Ra) as (a' & Ea & Ra' & _).
  rewrite Ea. cbn [bind]. eexists. split; [reflexivity|]. split; [|reflexivity]. split.
  - exact (nr_tree _ _ _ _ R).
  - intros x Hx y. cbn in Hx. unfold upd in Hx. unfold put_note. destruct (Nat.eqb_spec x n); [discriminate|]. cbn [andb]. exact (nr_none _ _ _ _ R x Hx y).
  - intros x a Hx. cbn in Hx. unfold upd in Hx. unfold put_note. destruct (Nat.eqb_spec x n) as [->|].
    + injection Hx as <-. eexists. split; [exact Ra'|]. intro y. cbn [andb]. rewrite found_put. cbn [e_key e_data]. destruct (bytes_eqb y k); [reflexivity|apply Hm].
    + cbn [andb]. exact (nr_some _ _ _ _ R x a Hx).
Qed.
Lemma nexec_ok t s m ch o s' m' : nrep t s m ch -> nstep s m o = Some (s', m') ->
  exists t' ch', nexec t o = Ok t' /\ nrep t' s' m' ch' /\ (forall n, attaches o n = false -> bare (nh_heap t) n -> bare (nh_heap t') n).
Proof.
  intros R H. destruct o as [o|n k kd v dd|n k z|n k str|n k d]; cbn [nstep nexec stored] in *.
  - destruct (fits s o) eqn:F; [|discriminate]. destruct (step_fam s o) as [s1|] eqn:E; [|discriminate]. cbn in H. injection H as <- <-.
    destruct (exec_step (nh_heap t) s ch o s1 (nr_tree _ _ _ _ R) E F) as (h' & ch' & Eh & Rh). rewrite Eh. cbn [bind].
    eexists. exists ch'. split; [reflexivity|]. split; [split; [exact Rh|exact (nr_none _ _ _ _ R)|exact (nr_some _ _ _ _ R)]|].
    intros n A B. exact (bare_exec _ _ _ _ A Eh B).
  - destruct (known s n) eqn:K; [|discriminate]. injection H as <- <-. destruct (annotate_ok t s m ch n k kd v dd R K) as (t' & E & R' & Hh).
    exists t', ch. split; [exact E|]. split; [exact R'|]. rewrite Hh. auto.
  - destruct (known s n) eqn:K; [|discriminate]. injection H as <- <-. destruct (annotate_ok t s m ch n k None (Some (NInt z)) (Some FreeNote) R K) as (t' & E & R' & Hh).
    exists t', ch. split; [exact E|]. split; [exact R'|]. rewrite Hh. auto.
  - destruct (known s n) eqn:K; [|discriminate]. cbn [andb] in H. destruct (forallb _ str) eqn:N; [|discriminate]. injection H as <- <-.
    assert (Nf : nul_free str). { intros I. rewrite forallb_forall in N. apply N in I. rewrite Ascii.eqb_refl in I. discriminate. }
    unfold annotate_string. rewrite dup_ok by exact Nf. cbn [bind].
    destruct (annotate_ok t s m ch n k None (Some (NStr str)) (Some FreeNote) R K) as (t' & E & R' & Hh).
    exists t', ch. split; [exact E|]. split; [exact R'|]. rewrite Hh. auto.
  - destruct (known s n) eqn:K; [|discriminate]. injection H as <- <-. destruct (annotate_ok t s m ch n k None (Some (NDouble d)) (Some FreeNote) R K) as (t' & E & R' & Hh).
    exists t', ch. split; [exact E|]. split; [exact R'|]. rewrite Hh. auto.
Qed.
Lemma nrun_ok ops : forall t s m ch s' m', nrep t s m ch -> nspec s m ops = Some (s', m') ->
  exists t' ch', nrun t ops = Ok t' /\ nrep t' s' m' ch' /\ (forall n, always_top ops n = true -> bare (nh_heap t) n -> bare (nh_heap t') n).
Proof.
  induction ops as [|o ops IH]; intros t s m ch s' m' R H; cbn [nspec nrun] in *.
  - injection H as <- <-. exists t, ch. auto.
  - destruct (nstep s m o) as [[s1 m1]|] eqn:E; [|discriminate]. destruct (nexec_ok t s m ch o s1 m1 R E) as (t1 & ch1 & E1 & R1 & B1). rewrite E1. cbn [bind].
    destruct (IH t1 s1 m1 ch1 s' m' R1 H) as (t2 & ch2 & E2 & R2 & B2). exists t2, ch2. split; [exact E2|]. split; [exact R2|].
    intros n A B. cbn [always_top forallb] in A. apply andb_prop in A as [A1 A2]. apply negb_true_iff in A1. apply B2; [exact A2|]. apply B1; assumption.
Qed.

Lemma parents_ok t s m ch k : nrep t s m ch -> forall n l, line s n l -> known s n = true ->
  (bare (nh_heap t) (last l 0) \/ nearest m k l <> None) ->
  exists f, forall fuel, f <= fuel -> get_in_parents fuel t (Some n) k = Ok (nearest m k l).
Proof.
  intros R n l L. induction L as [n P|n p l P L IH]; intros K B.
  - exists 1. intros [|fuel] Hf; [lia|]. cbn [get_in_parents]. destruct (known_node _ _ _ _ n R K) as (nd & E). rewrite E. cbn [bind].
    rewrite (note_of_ok t s m ch n k R). cbn [bind nearest last] in *. destruct (m n k) as [v|] eqn:Em; [reflexivity|].
    destruct B as [B|B]; [|congruence]. unfold rd_n in E. destruct (h_nodes (nh_heap t) n) as [x|] eqn:En; [|discriminate]. injection E as ->.
    rewrite (B nd En). cbn [holder_parent bind]. destruct fuel; reflexivity.
  - destruct (rep_around (nh_heap t) s ch (nr_tree _ _ _ _ R) n p P) as (Gp & _). unfold node_get_parent in Gp.
    destruct (known_node _ _ _ _ n R K) as (nd & E). rewrite E in Gp. cbn [bind] in Gp.
    assert (Kp : known s p = true) by (apply rep_known; destruct (parent_some _ _ _ P) as [Ip _]; exact Ip).
    destruct (m n k) as [v|] eqn:Em.
    + exists 1. intros [|fuel] Hf; [lia|]. cbn [get_in_parents]. rewrite E. cbn [bind]. rewrite (note_of_ok t s m ch n k R). cbn [bind nearest]. rewrite Em. reflexivity.
    + destruct (IH Kp) as (f & Hf).
      { cbn [nearest] in B. rewrite Em in B. destruct l as [|y l]; [inversion L|]. exact B. }
      exists (S f). intros [|fuel] Hl; [lia|]. cbn [get_in_parents]. rewrite E. cbn [bind]. rewrite (note_of_ok t s m ch n k R). cbn [bind nearest]. rewrite Em.
      rewrite Gp. cbn [bind]. apply Hf. lia.
Qed.
Lemma get_ok t s m ch k n l : nrep t s m ch -> line s n l -> known s n = true ->
  (bare (nh_heap t) (last l 0) \/ nearest m k l <> None) ->
  exists f, forall fuel, f <= fuel -> annotate_get fuel t n k true = Ok (nearest m k l).
Proof.
  intros R L K B. destruct (parents_ok t s m ch k R n l L K B) as (f & Hf). exists f. intros fuel Hl. unfold annotate_get.
  assert (X : get_in_parents (S fuel) t (Some n) k = Ok (nearest m k l)) by (apply Hf; lia). exact X.
Qed.

Theorem annotations ops s m : nspec fam_new no_notes ops = Some (s, m) ->
  exists t, nrun nheap_new ops = Ok t /\
    (forall n k fuel, known s n = true -> annotate_get fuel t n k false = Ok (m n k)) /\
    (forall n k l, known s n = true -> line s n l -> always_top ops (last l 0) = true \/ nearest m k l <> None ->
       exists f, forall fuel, f <= fuel ->
         annotate_get fuel t n k true = Ok (nearest m k l) /\
         (not_raw (nearest m k l) = true ->
          annotate_get_int fuel t n k true = Ok (as_int (nearest m k l)) /\
          annotate_get_string fuel t n k true = Ok (as_str (nearest m k l)) /\
          annotate_get_double fuel t n k true = Ok (as_double (nearest m k l)))).
Proof.
  intro H. destruct (nrun_ok ops nheap_new fam_new no_notes (fun _ => []) s m nrep_new H) as (t & ch & E & R & B). exists t. split; [exact E|]. split.
  - intros n k fuel K. unfold annotate_get. destruct (known_node _ _ _ _ n R K) as (nd & En). rewrite En. cbn [bind].
    rewrite (note_of_ok t s m ch n k R). cbn [bind]. destruct (m n k); reflexivity.
  - intros n k l K L Hl. destruct (get_ok t s m ch k n l R L K) as (f & Hf).
    { destruct Hl as [Hl|Hl]; [|right; exact Hl]. left. apply (B _ Hl). intros nd X. discriminate. }
    exists f. intros fuel Hu. specialize (Hf fuel Hu). split; [exact Hf|]. unfold annotate_get_int, annotate_get_string, annotate_get_double. rewrite Hf. cbn [bind].
    destruct (nearest m k l) as [[]|]; cbn; auto. discriminate.
Qed.
