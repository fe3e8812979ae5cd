(** The theorems about searches and visits, for trees built by edits. *)
From Verif Require Import Prelude ItemModel ItemSpec ItemExec ItemProofs ItemProofs3 ItemProofs7 StrModel FindModel FindSpec FindProofs FindProofs2 FindProofs3.
From Coq Require Import Permutation.
Open Scope nat_scope.
Open Scope list_scope.

Lemma pre_below t : Permutation (pre t) (label t :: below t).
Proof.
  induction t as [n ts IH] using tree_ind2. cbn [pre label below]. constructor.
  induction ts as [|t ts IHts]; [constructor|]. cbn [flat_map map app]. rewrite (IH t (or_introl eq_refl)), IHts by (intros u I; apply IH; right; exact I).
  cbn [app]. constructor. rewrite !app_assoc. apply Permutation_app_tail. apply Permutation_app_comm.
Qed.

Lemma level_pre l : Permutation (flat_map pre l) (map label l ++ flat_map pre (next_level l)).
Proof.
  induction l as [|[n ts] l IH]; [constructor|]. cbn [flat_map pre map label app next_level subs]. fold (next_level l). constructor. rewrite flat_map_app, IH, !app_assoc. apply Permutation_app_tail, Permutation_app_comm.
Qed.
Lemma levels_pre k : forall l, Nat.iter k next_level l = [] -> Permutation (levels k l) (flat_map pre l).
Proof.
  induction k as [|k IH]; intros l H; [cbn in H; subst l; constructor|]. cbn [levels]. rewrite level_pre. apply Permutation_app_head, IH.
  clear -H. revert l H. induction k as [|k IH]; intros l H; [exact H|]. cbn [Nat.iter] in *. change (next_level (Nat.iter k next_level (next_level l)) = []).
  assert (It : forall k x, Nat.iter (S k) next_level x = Nat.iter k next_level (next_level x)) by (clear; induction k as [|k IH]; intros x; [reflexivity|]; change (Nat.iter (S (S k)) next_level x) with (next_level (Nat.iter (S k) next_level x)); rewrite IH; reflexivity).
  rewrite <- It. exact H.
Qed.

Section Ops.
Variable ops : list op.
Variable s : fam.
Hypothesis E : run_fam fam_new ops = Some s.
Hypothesis F : fit fam_new ops = true.
Lemma built : exists h ch, run heap_new ops = Ok h /\ Rep h s ch.
Proof. exact (run_ok ops heap_new fam_new (fun _ => []) s rep_new E F). Qed.

Lemma children name : exists h, run heap_new ops = Ok h /\ forall p, known s p = true ->
  get_childs h p = Ok (elements (f_kids s p)) /\ get_child_num h p = Ok (length (elements (f_kids s p))) /\
  have_childs h p = Ok (negb (Nat.eqb (length (elements (f_kids s p))) 0)) /\
  (forall i, get_child_nth h p (Z.of_nat i) = Ok (nth_error (elements (f_kids s p)) i)) /\ (forall i, (i < 0)%Z -> get_child_nth h p i = Ok None) /\
  (forall x, get_child_called name h p x = Ok (called name x (elements (f_kids s p)))).
Proof.
  destruct built as (h & ch & Er & R). exists h. split; [exact Er|]. intros p K.
  split; [exact (get_childs_ok h s ch R p K)|]. split; [exact (get_child_num_ok h s ch R p K)|]. split; [exact (have_childs_ok h s ch R p K)|].
  split; [|split; [|intros x; exact (get_child_called_ok name h s ch R p K x)]].
  - intros i. rewrite (get_child_nth_ok h s ch R p K), Nat2Z.id. destruct (Z.leb_spec 0 (Z.of_nat i)); [reflexivity|lia].
  - intros i Hi. rewrite (get_child_nth_ok h s ch R p K). destruct (Z.leb_spec 0 i); [lia|reflexivity].
Qed.
Lemma siblings name : exists h, run heap_new ops = Ok h /\ forall p n l1 l2 x, known s p = true -> f_kids s p = l1 ++ (KNode, n) :: l2 ->
  get_next_called name h n x = Ok (called name x (elements l2)) /\ get_previous_called name h n x = Ok (called name x (rev (elements l1))).
Proof. destruct built as (h & ch & Er & R). exists h. split; [exact Er|]. intros p n l1 l2 x K Es. exact (get_next_called_ok name h s ch R p n x l1 l2 K Es). Qed.
Lemma finding name : exists h, run heap_new ops = Ok h /\ forall t x fuel, known s (label t) = true -> shows (f_kids s) t -> length (pre t) <= fuel ->
  find_called name fuel h x (label t) = Ok (called name x (below t)).
Proof.
  destruct built as (h & ch & Er & R). exists h. split; [exact Er|]. intros t x fuel K Sh L. apply (find_called_ok name h s ch R x fuel t); auto.
  assert (H : height t <= length (pre t)); [|lia]. clear. induction t as [n ts IH] using tree_ind2. cbn [height pre length]. apply le_n_S.
  induction ts as [|t ts IHts]; [cbn; lia|]. cbn [map list_max flat_map]. rewrite app_length. specialize (IHts (fun u I => IH u (or_intror I))). pose proof (IH t (or_introl eq_refl)).
  change (list_max (height t :: map height ts)) with (Nat.max (height t) (list_max (map height ts))). lia.
Qed.

Lemma paths name : exists h, run heap_new ops = Ok h /\ forall root l rest, Forall plain l -> l <> [] -> known s root = true ->
  exists r, doc_get name h root (path_text l ++ NUL :: rest) = Ok r /\
    (forall m, r = Some m -> at_path name (f_kids s) root l m) /\
    (unique_names name s -> forall m, at_path name (f_kids s) root l m -> r = Some m).
Proof. destruct built as (h & ch & Er & R). exists h. split; [exact Er|]. intros root l rest Fp Ne K. exact (doc_get_ok name h s ch R root l rest Fp Ne K). Qed.
Lemma path_star name : exists h, run heap_new ops = Ok h /\ forall root l more rest, Forall plain l -> l <> [] -> Forall segment more -> known s root = true ->
  more <> [] \/ (forall n, name n <> star) -> doc_get name h root (path_text (l ++ [star] ++ more) ++ NUL :: rest) = Ok None.
Proof. destruct built as (h & ch & Er & R). exists h. split; [exact Er|]. intros root l more rest Fp Ne Fm K D. exact (doc_get_star name h s ch R root l more rest Fp Ne Fm D K). Qed.
Lemma star_rejected name : exists h, run heap_new ops = Ok h /\ forall root l more rest, Forall plain l -> l <> [] -> Forall segment more -> known s root = true ->
  more <> [] -> doc_get name h root (path_text (l ++ [star] ++ more) ++ NUL :: rest) = Ok None.
Proof. destruct (path_star name) as (h & Er & H). exists h. split; [exact Er|]. intros. apply H; auto. Qed.
Lemma star_nothing name : (forall n, name n <> star) -> exists h, run heap_new ops = Ok h /\ forall root l rest, Forall plain l -> l <> [] -> known s root = true ->
  doc_get name h root (path_text (l ++ [star]) ++ NUL :: rest) = Ok None.
Proof. intros D. destruct (path_star name) as (h & Er & H). exists h. split; [exact Er|]. intros root l rest A B C. exact (H root l [] rest A B (Forall_nil _) C (or_intror D)). Qed.
Lemma path_sound name : exists h, run heap_new ops = Ok h /\ forall root l rest, Forall plain l -> l <> [] -> known s root = true ->
  exists r, doc_get name h root (path_text l ++ NUL :: rest) = Ok r /\ forall m, r = Some m -> at_path name (f_kids s) root l m.
Proof. destruct (paths name) as (h & Er & H). exists h. split; [exact Er|]. intros root l rest H1 H2 H3. destruct (H root l rest H1 H2 H3) as (r & A & B & _). eauto. Qed.
Lemma path_complete name : unique_names name s -> exists h, run heap_new ops = Ok h /\ forall root l rest m, Forall plain l -> l <> [] -> known s root = true ->
  at_path name (f_kids s) root l m -> doc_get name h root (path_text l ++ NUL :: rest) = Ok (Some m).
Proof. intros U. destruct (paths name) as (h & Er & H). exists h. split; [exact Er|]. intros root l rest m H1 H2 H3 H4. destruct (H root l rest H1 H2 H3) as (r & A & _ & B). rewrite A, (B U m H4). reflexivity. Qed.

Lemma visit_deep : exists h, run heap_new ops = Ok h /\ forall decide t fuel, known s (label t) = true -> shows (f_kids s) t -> length (pre t) <= fuel ->
  (v_removed (decide [(label t, None)]) = true -> exists q, parent s (label t) = Some q) ->
  let (seen, b) := deep decide None t [] in
  exists h', iterate decide fuel h (label t) Deep = Ok (h', seen, b && negb (v_removed (decide [(label t, None)]))) /\
    forall p, known s p = true -> items_shown h' (without s (gone decide [] seen)) p.
Proof.
  destruct built as (h & ch & Er & R). exists h. split; [exact Er|]. intros decide t fuel K Sh L Pa.
  destruct (iterate_deep decide s h ch t R Sh K (shows_nodup h s ch t R K Sh) Pa fuel L) as (h' & Ei & ch' & R'). destruct (deep decide None t []) as [seen b]. exists h'. split; [exact Ei|].
  intros p Kp. exact (rep_shown h' _ ch' R' p Kp).
Qed.
Lemma visit_wide : exists h, run heap_new ops = Ok h /\ forall decide t fuel, known s (label t) = true -> shows (f_kids s) t -> length (pre t) <= fuel ->
  (v_removed (decide [(label t, None)]) = true -> exists q, parent s (label t) = Some q) ->
  exists seen b h', wide decide [(t, None)] [] seen b /\ iterate decide fuel h (label t) Wide = Ok (h', seen, b && negb (v_removed (decide [(label t, None)]))) /\
    forall p, known s p = true -> items_shown h' (without s (gone decide [] seen)) p.
Proof.
  destruct built as (h & ch & Er & R). exists h. split; [exact Er|]. intros decide t fuel K Sh L Pa.
  destruct (iterate_wide decide s h ch t R Sh K (shows_nodup h s ch t R K Sh) Pa fuel L) as (h' & seen & b & W & Ei & ch' & R'). exists seen, b, h'. split; [exact W|]. split; [exact Ei|].
  intros p Kp. exact (rep_shown h' _ ch' R' p Kp).
Qed.
(** ** everything is looked at, once *)
Lemma visit_all : exists h, run heap_new ops = Ok h /\ forall t fuel, known s (label t) = true -> shows (f_kids s) t -> length (pre t) <= fuel ->
  NoDup (pre t) /\
  (exists h' seen, iterate always fuel h (label t) Deep = Ok (h', seen, true) /\ map fst seen = pre t) /\
  (exists h' seen k, iterate always fuel h (label t) Wide = Ok (h', seen, true) /\ map fst seen = levels k [t] /\ Permutation (map fst seen) (pre t)).
Proof.
  destruct built as (h & ch & Er & R). exists h. split; [exact Er|]. intros t fuel K Sh L. pose proof (shows_nodup h s ch t R K Sh) as ND. split; [exact ND|]. split.
  - destruct (iterate_deep always s h ch t R Sh K ND ltac:(discriminate) fuel L) as (h' & Ei & _). destruct (deep_always None t []) as [D1 D2]. rewrite D1 in Ei. cbn [fst snd andb negb always v_removed] in Ei. eexists h', _. split; [exact Ei|exact D2].
  - destruct (iterate_wide always s h ch t R Sh K ND ltac:(discriminate) fuel L) as (h' & seen & b & W & Ei & _). destruct (wide_always _ _ _ _ W) as (-> & k & E1 & E2). exists h', seen, k. cbn [map fst app] in E1, E2. split; [exact Ei|]. split; [exact E1|].
    rewrite E1. pose proof (levels_pre k [t] E2) as P. cbn [flat_map] in P. rewrite app_nil_r in P. exact P.
Qed.
End Ops.
