(** Concrete runs for KeepProps.v. *)
From Verif Require Import Prelude HashModel OwnModel OwnExec OwnSpec OwnCases KeepModel KeepSpec.
From Coq Require Import Lia.
Open Scope nat_scope.
Open Scope list_scope.

(** legality of a concrete run, decided: the paths to the nodes inside a node *)
Fixpoint paths (n : node) : list (list nat) :=
  match n with
  | Node _ _ _ _ _ _ items _ =>
    (fix go (i : nat) (l : list item) : list (list nat) :=
       match l with
       | [] => []
       | INode c :: r => [i] :: map (cons i) (paths c) ++ go (S i) r
       | _ :: r => go (S i) r
       end) 0 items
  end.
Definition go_paths : nat -> list item -> list (list nat) :=
  fix go (i : nat) (l : list item) : list (list nat) :=
       match l with
       | [] => []
       | INode c :: r => [i] :: map (cons i) (paths c) ++ go (S i) r
       | _ :: r => go (S i) r
       end.
Lemma go_paths_in l : forall i j c p, nth_error l j = Some (INode c) -> p = [] \/ In p (paths c) -> In ((i + j) :: p) (go_paths i l).
Proof.
  induction l as [|x l IH]; intros i j c p H Hp; [destruct j; discriminate|]. destruct j as [|j]; cbn [nth_error] in H.
  - injection H as ->. rewrite Nat.add_0_r. cbn [go_paths]. destruct Hp as [->|Hp]; [left; reflexivity|]. right. apply in_or_app. left. apply in_map. exact Hp.
  - replace (i + S j) with (S i + j) by lia. assert (X : In (S i + j :: p) (go_paths (S i) l)) by (eapply IH; eassumption).
    destruct x; cbn [go_paths]; try exact X. right. apply in_or_app. right. exact X.
Qed.
Lemma paths_in : forall p i n c, get (i :: p) n = Some c -> In (i :: p) (paths n).
Proof.
  induction p as [|i' p IH]; intros i n c H; cbn [get] in H; destruct n as [self fac name nfac attributes num items holder]; cbn [n_items] in H;
    destruct (nth_error items i) as [[c'| |]|] eqn:E; try discriminate.
  all: change (In (0 + i :: p) (go_paths 0 items)) || change (In [0 + i] (go_paths 0 items)) || change (In (0 + i :: i' :: p) (go_paths 0 items)).
  - eapply go_paths_in; [exact E|left; reflexivity].
  - eapply go_paths_in; [exact E|right]. eapply IH. exact H.
Qed.

Definition closedb (k : keep) (n : node) : bool :=
  forallb (fun q => match q with
                    | i :: p =>
                      match get q n with
                      | Some c => forallb (fun d => negb (dependsb d (prune i p n))) (kept (addr c) k)
                      | None => true
                      end
                    | [] => true
                    end) (paths n).
Definition releasableb (k : keep) (n : node) (others : forest) : bool :=
  closedb k n &&
  forallb (fun a => forallb (fun d => forallb (fun x => negb (dependsb d (fst x))) others) (kept a k)) (ids n).
Lemma in_kept a d k : In (a, d) k -> In d (kept a k).
Proof. intro H. unfold kept. apply in_map_iff. exists (a, d). split; [reflexivity|]. apply filter_In. split; [exact H|apply Nat.eqb_refl]. Qed.
Lemma no_depend d n : negb (dependsb d n) = true -> ~ depends d n.
Proof. intros H D. rewrite (dependsb_ok _ _ D) in H. discriminate. Qed.
Lemma closedb_ok k n : closedb k n = true -> closed k n.
Proof.
  intros H i p c d G K. unfold closedb in H. rewrite forallb_forall in H. specialize (H _ (paths_in _ _ _ _ G)). cbv beta in H.
  rewrite G in H. rewrite forallb_forall in H. apply no_depend, H, in_kept, K.
Qed.
Lemma releasableb_ok k n others : releasableb k n others = true -> releasable k n others.
Proof.
  intro H. apply andb_true_iff in H. destruct H as [H1 H2]. split; [apply closedb_ok; exact H1|]. intros a d x o A K X.
  rewrite forallb_forall in H2. specialize (H2 _ A). rewrite forallb_forall in H2. specialize (H2 _ (in_kept _ _ _ K)).
  rewrite forallb_forall in H2. exact (no_depend _ _ (H2 _ X)).
Qed.
Definition releasable_atb (j : nat) (s : kst) : bool :=
  match loose j (k_st s) with Some n => releasableb (k_keep s) n (del_nth j (s_roots (k_st s))) | None => true end.
Lemma releasable_atb_ok j s : releasable_atb j s = true -> releasable_at j s.
Proof. intros H n E. unfold releasable_atb in H. rewrite E in H. apply releasableb_ok. exact H. Qed.
Definition unkept (d : nat) (s : kst) : bool := negb (existsb (Nat.eqb d) (map snd (k_keep s))).
Lemma unkept_ok d s : unkept d s = true -> ~ In d (map snd (k_keep s)).
Proof.
  unfold unkept. intros H X. apply negb_true_iff in H. assert (E : existsb (Nat.eqb d) (map snd (k_keep s)) = true).
  { apply existsb_exists. exists d. split; [exact X|apply Nat.eqb_refl]. } congruence.
Qed.
Fixpoint roots_okb (d : nat) (k : keep) (l1 l2 : forest) : bool :=
  match l2 with
  | [] => true
  | x :: r => (if is_root d x then releasableb k (fst x) (l1 ++ r) else true) && roots_okb d k (l1 ++ [x]) r
  end.
Lemma roots_okb_ok d k : forall l2 l1, roots_okb d k l1 l2 = true -> forall a n b, l2 = a ++ (n, Some d) :: b -> releasable k n (l1 ++ a ++ b).
Proof.
  induction l2 as [|x r IH]; intros l1 H a n b E; [destruct a; discriminate|]. cbn [roots_okb] in H. apply andb_true_iff in H. destruct H as [H1 H2].
  destruct a as [|y a]; cbn [app] in E; injection E as Ex Er; subst x.
  - unfold is_root in H1. cbn [snd] in H1. rewrite Nat.eqb_refl in H1. subst r. apply releasableb_ok. exact H1.
  - specialize (IH _ H2 a n b Er). rewrite <- app_assoc in IH. exact IH.
Qed.
Definition klegalb (esc : bytes -> bytes) (s : kst) (c : kcall) : bool :=
  match c with
  | KParsed j => true
  | KCall c =>
    legalb (k_st s) c &&
    match c with
    | CFree j | CFreeFull j _ => releasable_atb j s
    | CRemove p k true => match plain esc s (CRemove p k false) with Ok s' => releasable_atb (last_tree s') s' | _ => true end
    | CReplace p k j true => match plain esc s (CReplace p k j false) with Ok s' => releasable_atb (last_tree s') s' | _ => true end
    | CSetRoot _ d => unkept d s
    | CDocFree d => unkept d s && roots_okb d (k_keep s) [] (s_roots (k_st s))
    | _ => true
    end
  end.
Lemma klegalb_ok esc s c : klegalb esc s c = true -> klegal esc s c.
Proof.
  destruct c as [c|j]; [|intro; exact I]. unfold klegalb, klegal. intro H. apply andb_true_iff in H. destruct H as [H1 H2].
  split; [apply legalb_ok; exact H1|].
  destruct c; try exact I.
  - destruct dealloc; [|exact I]. intros s' E. rewrite E in H2. apply releasable_atb_ok. exact H2.
  - destruct dealloc; [|exact I]. intros s' E. rewrite E in H2. apply releasable_atb_ok. exact H2.
  - apply releasable_atb_ok. exact H2.
  - apply releasable_atb_ok. exact H2.
  - apply unkept_ok. exact H2.
  - apply andb_true_iff in H2. destruct H2 as [H2 H3]. split; [apply unkept_ok; exact H2|]. intros l1 n l2 E.
    exact (roots_okb_ok _ _ _ _ H3 _ _ _ E).
Qed.
Fixpoint klegalb_all (esc : bytes -> bytes) (s : kst) (l : list kcall) : bool :=
  match l with
  | [] => true
  | c :: r => klegalb esc s c && match kexec esc s c with Ok s' => klegalb_all esc s' r | _ => true end
  end.
Lemma klegalb_all_ok esc l : forall s, klegalb_all esc s l = true -> klegal_all esc s l.
Proof.
  induction l as [|c l IH]; intros s H; cbn [klegalb_all klegal_all] in *; [exact I|].
  apply andb_true_iff in H. destruct H as [H1 H2]. split; [apply klegalb_ok; exact H1|].
  intros s' E. rewrite E in H2. apply IH. exact H2.
Qed.

(** three nodes are read from texts, documents 0, 2 and 3; the program changes the first
    and makes document 1 of a node of its own, puts the three in and takes one out again *)
Definition klife : list kcall :=
  [KCall (CParsed 0 (s2b "a")); KCall (CSetRoot 0 0); KCall (CSetAttrParsed (0, []) 0 (s2b "id") (s2b "1"));
   KCall (CTextParsed (0, []) 0 KContent (s2b "text")); KCall (CParsed 0 (s2b "b")); KCall (CSetChild (0, []) 1);
   KParsed 0;
   KCall (CSetName (0, []) (s2b "c")); KCall (CText (0, []) KCdata (s2b "more"));
   KCall (CCreate (s2b "top")); KCall (CSetRoot 1 1); KCall (CSetChild (1, []) 0);
   (* document 1 is tree 0 now *)
   KCall (CParsed 2 (s2b "d")); KCall (CSetRoot 1 2); KParsed 1; KCall (CSetChild (0, []) 1);
   KCall (CParsed 3 (s2b "e")); KCall (CSetRoot 1 3); KParsed 1; KCall (CSetAfter (0, [0]) 1 1);
   KCall (CCopy (0, [0]));
   KCall (CRemove (0, []) 1 true)].
Definition kend : list kcall := [KCall (CDocFree 1); KCall (CFree 0)].
Lemma klife_legal : klegal_all idesc kst0 (klife ++ kend).
Proof. apply klegalb_all_ok. vm_compute. reflexivity. Qed.
Lemma klife_runs :
  (exists s, kexec_all idesc kst0 klife = Ok s /\ length (m_live (s_mem (k_st s))) = 22 /\ length (s_roots (k_st s)) = 2 /\
     map snd (k_keep s) = [3; 0] /\ m_dead (s_mem (k_st s)) = [2]) /\
  (exists s, kexec_all idesc kst0 (klife ++ kend) = Ok s /\ s_roots (k_st s) = []).
Proof. split; (eexists; split; [vm_compute; reflexivity|]); vm_compute; auto. Qed.
Lemma child_ub : kexec_all idesc kst0
  [KCall (CParsed 0 (s2b "a")); KCall (CSetRoot 0 0); KCall (CParsed 0 (s2b "b")); KCall (CSetChild (0, []) 1); KParsed 0;
   KCall (CRemove (0, []) 0 false); KCall (CFree 0); KCall (CFree 0)] = UB.
Proof. vm_compute. reflexivity. Qed.
Lemma lent_ub : kexec_all idesc kst0
  [KCall (CParsed 0 (s2b "a")); KCall (CSetRoot 0 0); KParsed 0; KCall (CCreate (s2b "b")); KCall (CSetChild (0, []) 1);
   KCall (CRemove (0, []) 0 false); KCall (CFree 0); KCall (CFree 0)] = UB.
Proof. vm_compute. reflexivity. Qed.
