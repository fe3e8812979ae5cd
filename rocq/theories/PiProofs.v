(** The instructions of nodes and documents. *)
From Verif Require Import Prelude HashStrProofs TreeModel ItemModel ItemSpec ItemExec ItemProofs ItemProofs3 ItemProofs4 ItemProofs6 ItemProofs7 FindProofs PiModel PiSpec.
Open Scope nat_scope.
Open Scope list_scope.

Record inv (t : pheap) (w : world) : Prop := {
  v_rep : exists ch, Rep (ph_heap t) (w_fam w) ch;
  v_pis : ph_pis t = map Some (w_made w);
  v_doc : Forall2 (fun a p => nth_error (w_made w) a = Some p) (ph_doc t) (w_doc w);
  v_kids : forall p a, In (KPi, a) (f_kids (w_fam w) p) -> a < length (w_made w)
}.
Lemma inv_new : inv pheap_new world_new.
Proof. split; [exists (fun _ => []); exact rep_new|reflexivity|constructor|intros p a []]. Qed.
Lemma in_put c k (l m : list child) : In c (put k l m) -> In c l \/ In c m.
Proof.
  unfold put. intros I. apply in_app_or in I as [I|I]; [right; rewrite <- (firstn_skipn k m); apply in_or_app; left; exact I|].
  apply in_app_or in I as [I|I]; [left; exact I|right]. rewrite <- (firstn_skipn k m). apply in_or_app. right. exact I.
Qed.
Lemma in_cut c k (m : list child) : In c (cut k m) -> In c m.
Proof.
  unfold cut. intros I. apply in_app_or in I as [I|I]; [rewrite <- (firstn_skipn k m); apply in_or_app; left; exact I|]. rewrite <- (firstn_skipn (S k) m). apply in_or_app. right. exact I.
Qed.
Lemma in_set f p l x (c : child) : In c (set_kids f p l x) -> In c l \/ In c (f x).
Proof. unfold set_kids. destruct (Nat.eqb x p); auto. Qed.
Lemma guard_some {A} b (x y : A) : guard b x = Some y -> y = x.
Proof. destruct b; [intros Q; injection Q as <-; reflexivity|discriminate]. Qed.
Lemma no_pi_not a c : no_pi c = true -> (KPi, a) <> c.
Proof. intros N Q. subst c. discriminate. Qed.
Lemma step_pis s o s' p a : plain_op o = true -> step_fam s o = Some s' -> In (KPi, a) (f_kids s' p) -> exists q, In (KPi, a) (f_kids s q).
Proof.
  intros P E. destruct o; cbn [step_fam plain_op] in *.
  - injection E as <-. cbn [f_kids]. intros I. apply in_set in I as [[]|I]. eauto.
  - apply guard_some in E. subst s'. cbn [f_kids]. intros I. apply in_set in I as [I|I]; [|eauto]. apply in_app_or in I as [I|[I|[]]]; [eauto|]. destruct (no_pi_not a _ P). congruence.
  - apply guard_some in E. subst s'. cbn [f_kids]. intros I. apply in_set in I as [I|I]; [|eauto]. apply in_put in I as [[I|[]]|I]; [|eauto]. destruct (no_pi_not a _ P). congruence.
  - destruct (parent s r); [|discriminate]. destruct (place _ _); [|discriminate]. apply guard_some in E. subst s'. cbn [f_kids]. intros I. apply in_set in I as [I|I]; [|eauto]. apply in_put in I as [[I|[]]|I]; [discriminate|eauto].
  - destruct (parent s n); [|discriminate]. destruct (place _ _); [|discriminate]. injection E as <-. cbn [f_kids]. intros I. apply in_set in I as [I|I]; [|eauto]. apply in_cut in I. eauto.
  - destruct (parent s n); [|discriminate]. destruct (place _ _); [|discriminate]. apply guard_some in E. subst s'. cbn [f_kids]. intros I. apply in_set in I as [I|I]; [|eauto].
    apply in_put in I as [[I|[]]|I]; [discriminate|]. apply in_cut in I. eauto.
  - apply guard_some in E. subst s'. cbn [f_kids]. intros I. apply in_set in I as [I|I]; [|eauto]. apply in_cut in I. eauto.
  - apply guard_some in E. subst s'. cbn [f_kids]. intros I. apply in_set in I as [I|I]; [|eauto]. apply in_put in I as [[I|[]]|I]; [destruct (no_pi_not a _ P); congruence|]. apply in_cut in I. eauto.
  - apply guard_some in E. subst s'. cbn [f_kids]. intros I. apply in_set in I as [[]|I]. apply in_set in I as [I|I]; [|eauto]. apply in_app_or in I as [I|I]; eauto.
  - apply guard_some in E. subst s'. cbn [f_kids]. intros I. apply in_set in I as [[]|I]. apply in_set in I as [I|I]; [|eauto]. apply in_put in I as [I|I]; eauto.
Qed.
Lemma more_doc made x l (m : list pi) : Forall2 (fun a p => nth_error made a = Some p) l m -> Forall2 (fun a p => nth_error (made ++ [x]) a = Some p) l m.
Proof. intros F. induction F as [|a p l m H F IH]; constructor; [|exact IH]. rewrite nth_error_app1; [exact H|]. apply nth_error_Some. congruence. Qed.
Lemma p_step t w o w' : inv t w -> step_world w o = Some w' -> fits_world w o = true -> exists t', p_exec t o = Ok t' /\ inv t' w'.
Proof.
  intros [(ch & R) P D K] E F. destruct o as [o|n x c|x c]; cbn [step_world p_exec fits_world] in *.
  - destruct (plain_op o) eqn:Po; [|discriminate]. destruct (step_fam (w_fam w) o) as [s|] eqn:Es; [|discriminate]. injection E as <-.
    destruct (exec_step _ _ _ _ _ R Es F) as (h' & ch' & Eh & R'). rewrite Eh. cbn [bind]. eexists. split; [reflexivity|]. split; cbn [ph_heap ph_pis ph_doc w_fam w_made w_doc]; try assumption; [eauto|].
    intros p a I. destruct (step_pis _ _ _ _ _ Po Es I) as (q & I'). eapply K, I'.
  - destruct (known (w_fam w) n) eqn:Kn; [|discriminate]. set (a := length (w_made w)) in *. destruct (step_fam (w_fam w) (OChild n (KPi, a))) as [s|] eqn:Es; [|discriminate]. injection E as <-.
    destruct (exec_step _ _ _ _ _ R Es eq_refl) as (h' & ch' & Eh & R'). cbn [exec] in Eh. unfold node_add_pi, pi_create. cbv beta iota zeta. cbn [ph_heap ph_pis ph_doc].
    rewrite P, map_length. fold a. rewrite Eh. cbn [bind]. eexists. split; [reflexivity|]. split; cbn [ph_heap ph_pis ph_doc w_fam w_made w_doc].
    + eauto.
    + rewrite map_app. reflexivity.
    + apply more_doc, D.
    + rewrite app_length. cbn [length]. cbn [step_fam] in Es. apply guard_some in Es. subst s. cbn [f_kids]. intros p b I. apply in_set in I as [I|I].
      * apply in_app_or in I as [I|[I|[]]]; [apply K in I; lia|]. injection I as <-. subst a. lia.
      * apply K in I. lia.
  - injection E as <-. eexists. split; [reflexivity|]. unfold doc_add_pi, pi_create. split; cbn [ph_heap ph_pis ph_doc w_fam w_made w_doc].
    + eauto.
    + rewrite P, map_app. reflexivity.
    + apply Forall2_app; [apply more_doc, D|]. constructor; [|constructor]. rewrite P, map_length, nth_error_app2, Nat.sub_diag by lia. reflexivity.
    + intros p b I. apply K in I. rewrite app_length. cbn [length]. lia.
Qed.
Lemma p_built ops : forall t w w', inv t w -> run_world w ops = Some w' -> fit_world w ops = true -> exists t', p_run t ops = Ok t' /\ inv t' w'.
Proof.
  induction ops as [|o ops IH]; intros t w w' V E F; cbn [run_world fit_world p_run] in *; [injection E as <-; eauto|].
  destruct (step_world w o) as [w1|] eqn:Eo; [|discriminate]. apply andb_prop in F as [F1 F2]. destruct (p_step t w o w1 V Eo F1) as (t1 & E1 & V1). rewrite E1. cbn [bind]. eapply IH; eassumption.
Qed.

Definition pi_at (w : world) (c : child) : list pi := match fst c with KPi => match nth_error (w_made w) (snd c) with Some p => [p] | None => [] end | _ => [] end.
Section Rep.
Variable t : pheap.
Variable w : world.
Hypothesis V : inv t w.
Lemma rd_made a p : nth_error (w_made w) a = Some p -> rd_pi t a = Ok p.
Proof. intros E. unfold rd_pi. rewrite (v_pis _ _ V), nth_error_map, E. reflexivity. Qed.
Lemma pi_seg x p : forall l pr fuel, seg (h_items (ph_heap t)) p pr l None -> length l <= fuel -> (forall a, In (KPi, a) (map snd l) -> a < length (w_made w)) ->
  pi_loop fuel t x (hd_or l None) = Ok (find (named x) (flat_map (pi_at w) (map snd l))).
Proof.
  induction l as [|[a [k d]] l IH]; intros pr fuel Sg L Ml; [destruct fuel; reflexivity|]. cbn [length] in L. destruct fuel as [|fuel]; [lia|]. destruct Sg as [E Sg].
  cbn [hd_or pi_loop]. unfold rd_i. rewrite E. cbn [of_option bind i_kind i_data i_next fst snd map flat_map].
  assert (forall b, In (KPi, b) (map snd l) -> b < length (w_made w)) as Ml' by (intros b I; apply Ml; right; exact I). rewrite (IH _ fuel Sg ltac:(lia) Ml').
  destruct k; cbn [is_pi pi_at fst snd app]; try reflexivity. destruct (nth_error (w_made w) d) as [q|] eqn:N.
  - rewrite (rd_made d q N). cbn [bind app find]. unfold named at 2. destruct (bytes_eqb _ _); reflexivity.
  - apply nth_error_None in N. assert (d < length (w_made w)) by (apply Ml; left; reflexivity). lia.
Qed.
Definition add_to (r : option (list nat)) (l : list nat) : option (list nat) := match l with [] => r | _ => Some (match r with None => [] | Some m => m end ++ l) end.
Definition handles (l : list child) : list nat := flat_map (fun c => match fst c with KPi => [snd c] | _ => [] end) l.
Lemma list_seg p : forall l pr fuel r, seg (h_items (ph_heap t)) p pr l None -> length l <= fuel ->
  pi_list_loop fuel t r (hd_or l None) = Ok (add_to r (handles (map snd l))).
Proof.
  induction l as [|[a [k d]] l IH]; intros pr fuel r Sg L; [destruct fuel; reflexivity|]. cbn [length] in L. destruct fuel as [|fuel]; [lia|]. destruct Sg as [E Sg].
  cbn [hd_or pi_list_loop]. unfold rd_i. rewrite E. cbn [of_option bind i_kind i_data i_next fst snd map]. rewrite (IH _ fuel _ Sg ltac:(lia)). f_equal. unfold handles at 2. cbn [flat_map fst snd]. fold (handles (map snd l)).
  destruct k; cbn [is_pi app]; try reflexivity. unfold add_to. destruct (handles (map snd l)); [reflexivity|]. rewrite <- app_assoc. reflexivity.
Qed.
Section Node.
Variable p : nat.
Hypothesis Kp : known (w_fam w) p = true.
Lemma node_find_ok x : node_find_pi t p x = Ok (find (named x) (pis_of w p)).
Proof.
  destruct (v_rep _ _ V) as (ch & R). pose proof (proj1 (rep_known (w_fam w) p) Kp) as Ip. destruct (head _ _ _ R p Kp) as (n & E & F). unfold node_find_pi. rewrite E. cbn [bind]. rewrite F.
  unfold pis_of. rewrite (r_kids _ _ _ R p Ip). eapply pi_seg; [apply R|eapply chain_length, R|]. intros a I. apply (v_kids _ _ V p). rewrite (r_kids _ _ _ R p Ip). exact I.
Qed.
Lemma node_list_ok : exists l, node_pi_list t p = Ok (match l with [] => None | _ => Some l end) /\ Forall2 (fun a q => rd_pi t a = Ok q) l (pis_of w p).
Proof.
  destruct (v_rep _ _ V) as (ch & R). pose proof (proj1 (rep_known (w_fam w) p) Kp) as Ip. destruct (head _ _ _ R p Kp) as (n & E & F). exists (handles (f_kids (w_fam w) p)). split.
  - unfold node_pi_list. rewrite E. cbn [bind]. rewrite F, (r_kids _ _ _ R p Ip). rewrite (list_seg p _ None) by (apply R || (eapply chain_length, R)). unfold add_to. destruct (handles _); reflexivity.
  - assert (forall a, In (KPi, a) (f_kids (w_fam w) p) -> a < length (w_made w)) as M by (intros a; apply (v_kids _ _ V)). unfold pis_of, handles. clear -V M. induction (f_kids (w_fam w) p) as [|[k d] l IH]; [constructor|]. cbn [flat_map fst snd].
    assert (Forall2 (fun a q => rd_pi t a = Ok q) (flat_map (fun c => match fst c with KPi => [snd c] | _ => [] end) l)
      (flat_map (fun c => match fst c with KPi => match nth_error (w_made w) (snd c) with Some p => [p] | None => [] end | _ => [] end) l)) as F by (apply IH; intros a I; apply M; right; exact I).
    destruct k; try exact F. destruct (nth_error (w_made w) d) as [q|] eqn:N; [constructor; [apply rd_made, N|exact F]|]. apply nth_error_None in N. specialize (M d (or_introl eq_refl)). lia.
Qed.
End Node.
Lemma doc_find_ok x : doc_pi_loop t x (ph_doc t) = Ok (find (named x) (w_doc w)).
Proof.
  pose proof (v_doc _ _ V) as F. induction F as [|a p l m H F IH]; [reflexivity|]. cbn [doc_pi_loop find]. rewrite (rd_made a p H). cbn [bind]. unfold named at 1. destruct (bytes_eqb _ _); [reflexivity|exact IH].
Qed.
Lemma doc_list_ok : Forall2 (fun a q => rd_pi t a = Ok q) (doc_pi_list t) (w_doc w).
Proof. unfold doc_pi_list. pose proof (v_doc _ _ V) as F. induction F as [|a p l m H F IH]; constructor; [apply rd_made, H|exact IH]. Qed.
End Rep.
Lemma has_find {A} (f : A -> bool) l : match find f l with Some _ => true | None => false end = existsb f l.
Proof. induction l as [|x l IH]; [reflexivity|]. cbn. destruct (f x); [reflexivity|exact IH]. Qed.
Lemma node_pis ops w : run_world world_new ops = Some w -> fit_world world_new ops = true -> exists t, p_run pheap_new ops = Ok t /\
  forall n, known (w_fam w) n = true ->
    (forall x, node_has_pi t n x = Ok (existsb (named x) (pis_of w n))) /\
    (forall x, node_pi_content t n x = Ok (match find (named x) (pis_of w n) with Some p => pi_content p | None => None end)) /\
    exists l, node_pi_list t n = Ok (match l with [] => None | _ => Some l end) /\ Forall2 (fun a q => rd_pi t a = Ok q) l (pis_of w n).
Proof.
  intros E F. destruct (p_built ops _ _ _ inv_new E F) as (t & Er & V). exists t. split; [exact Er|]. intros n K. split; [|split].
  - intros x. unfold node_has_pi. rewrite (node_find_ok t w V n K x). cbn [bind]. rewrite has_find. reflexivity.
  - intros x. unfold node_pi_content. rewrite (node_find_ok t w V n K x). reflexivity.
  - apply node_list_ok; assumption.
Qed.
Lemma doc_pis ops w : run_world world_new ops = Some w -> fit_world world_new ops = true -> exists t, p_run pheap_new ops = Ok t /\
  (forall x, doc_has_pi t x = Ok (existsb (named x) (w_doc w))) /\
  (forall x, doc_pi_content t x = Ok (match find (named x) (w_doc w) with Some p => pi_content p | None => None end)) /\
  Forall2 (fun a q => rd_pi t a = Ok q) (doc_pi_list t) (w_doc w).
Proof.
  intros E F. destruct (p_built ops _ _ _ inv_new E F) as (t & Er & V). exists t. split; [exact Er|]. split; [|split].
  - intros x. unfold doc_has_pi. rewrite (doc_find_ok t w V x). cbn [bind]. rewrite has_find. reflexivity.
  - intros x. unfold doc_pi_content. rewrite (doc_find_ok t w V x). reflexivity.
  - apply doc_list_ok, V.
Qed.
