(** Concrete runs for OwnProps.v. *)
From Verif Require Import Prelude HashModel OwnModel OwnExec OwnSpec.
Open Scope nat_scope.

Definition idesc (s : bytes) : bytes := s.
Definition names : list bytes := map s2b ["a"; "b"; "c"; "d"; "e"; "f"; "g"; "h"; "i"; "j"; "k"; "l"]%string.
(** a document is read, edited and released, together with nodes made by hand: twelve
    attributes (a hash), one taken off, text of the parser and of the user, a copy, a child
    taken out and put elsewhere, a replacement *)
Definition life : list call :=
  [CParsed 0 (s2b "root"); CSetRoot 0 0; CSetAttrParsed (0, []) 0 (s2b "id") (s2b "1");
   CTextParsed (0, []) 0 KContent (s2b "text"); CSetName (0, []) (s2b "top");
   CCreate (s2b "item")]
  ++ map (fun a => CSetAttr (1, []) a (s2b "v")) names ++
  [CRemoveAttr (1, []) (s2b "c"); CText (1, []) KCdata (s2b "raw"); CPi (1, []) (s2b "x") (Some (s2b "y"));
   CCreate (s2b "sub"); CSetChild (1, []) 2; CSetNameRef (1, [2]) (s2b "leaf");
   CCopy (1, []);                     (* tree 2 *)
   CSetChild (0, []) 1;               (* the copy is tree 1 now *)
   CRemove (1, []) 2 false;           (* its child is tree 2 *)
   CSetAfter (0, []) 1 2;
   CCreate (s2b "new"); CText (2, []) KComment (s2b "c");
   CReplace (0, []) 2 2 true;
   CRemoveAttr (1, []) (s2b "a"); CSetAttrRef (1, []) (s2b "z") (s2b "w");
   CParsed 1 (s2b "other"); CFreeFull 2 true;
   CFree 1].

(** legality of a concrete run, decided *)
Definition is_pool (d : nat) (b : blk) : bool := match b_org b with Some e => Nat.eqb e d | None => false end.
Definition dependsb (d : nat) (n : node) : bool := existsb (is_pool d) (blocks n) || existsb (Nat.eqb d) (docs n).
Definition legalb (s : st) (c : call) : bool :=
  match c with
  | CSetNameRef p _ => match node_at p s with Some n => match n_name n with Some b => negb (is_some (b_org b)) | None => true end | None => true end
  | CFreeFull j _ => match loose j s with Some n => match n_items n with [] => true | _ => false end | None => true end
  | CReplace _ _ j _ => match loose j s with Some x => match n_holder x with Some h => is_some (b_org (hd_blk h)) | None => true end | None => true end
  | CDocFree d => forallb (fun x => is_root d x || negb (dependsb d (fst x))) (s_roots s)
  | _ => true
  end.
Fixpoint legalb_all (esc : bytes -> bytes) (s : st) (l : list call) : bool :=
  match l with
  | [] => true
  | c :: r => legalb s c && match exec esc s c with Ok s' => legalb_all esc s' r | _ => true end
  end.
Lemma dependsb_ok d n : depends d n -> dependsb d n = true.
Proof.
  unfold dependsb. intros [(b & Hb & Eb)|H]; apply orb_true_iff.
  - left. apply existsb_exists. exists b. split; [exact Hb|]. unfold is_pool. rewrite Eb. apply Nat.eqb_refl.
  - right. apply existsb_exists. exists d. split; [exact H|apply Nat.eqb_refl].
Qed.
Lemma legalb_ok s c : legalb s c = true -> legal s c.
Proof.
  destruct c; cbn [legalb legal]; try (intros; exact I).
  - intros H n b E1 E2. rewrite E1, E2 in H. destruct (b_org b); [discriminate|reflexivity].
  - intros H x h E1 E2. rewrite E1, E2 in H. destruct (b_org (hd_blk h)); [discriminate|discriminate H].
  - intros H n E1. rewrite E1 in H. destruct (n_items n); [reflexivity|discriminate].
  - intros H n o Hin No Dep. rewrite forallb_forall in H. specialize (H _ Hin). cbn [fst] in H.
    rewrite (dependsb_ok _ _ Dep) in H. unfold is_root in H. cbn [snd] in H. destruct o as [e|]; [|discriminate].
    destruct (Nat.eqb_spec e d) as [E0|]; [congruence|discriminate].
Qed.
Lemma legalb_all_ok esc l : forall s, legalb_all esc s l = true -> legal_all esc s l.
Proof.
  induction l as [|c l IH]; intros s H; cbn [legalb_all legal_all] in *; [exact I|].
  apply andb_true_iff in H. destruct H as [H1 H2]. split; [apply legalb_ok; exact H1|].
  intros s' E. rewrite E in H2. apply IH. exact H2.
Qed.
Lemma life_legal : legal_all idesc st0 (life ++ [CDocFree 0]).
Proof. apply legalb_all_ok. vm_compute. reflexivity. Qed.

Lemma life_runs :
  legal_all idesc st0 (life ++ [CDocFree 0]) /\
  (exists s, exec_all idesc st0 life = Ok s /\ length (m_live (s_mem s)) = 42 /\ length (s_roots s) = 1 /\
     option_map (fun n => length (n_items n)) (node_at (0, []) s) = Some 3 /\
     option_map n_num (node_at (0, [1]) s) = Some 11) /\
  (exists s, exec_all idesc st0 (life ++ [CDocFree 0]) = Ok s /\ s_roots s = [] /\ m_live (s_mem s) = []).
Proof.
  split; [exact life_legal|]. split; (eexists; split; [vm_compute; reflexivity|]); vm_compute; auto.
Qed.
Lemma name_leak : exists calls s, exec_all idesc st0 calls = Ok s /\ s_roots s = [] /\ m_live (s_mem s) <> [] /\
    calls = [CParsed 0 (s2b "a"); CSetNameRef (0, []) (s2b "b"); CFree 0; CDocFree 0].
Proof. eexists _, _. split; [|split; [|split; [|reflexivity]]]; vm_compute; try reflexivity. discriminate. Qed.
Lemma full_leak : exists calls s, exec_all idesc st0 calls = Ok s /\ s_roots s = [] /\ m_live (s_mem s) <> [] /\
    calls = [CCreate (s2b "a"); CText (0, []) KContent (s2b "t"); CFreeFull 0 true].
Proof. eexists _, _. split; [|split; [|split; [|reflexivity]]]; vm_compute; try reflexivity. discriminate. Qed.
Lemma replace_leak : exists calls s, exec_all idesc st0 calls = Ok s /\ s_roots s = [] /\ m_live (s_mem s) <> [] /\
    calls = [CCreate (s2b "a"); CCreate (s2b "b"); CSetChild (0, []) 1; CRemove (0, []) 0 false;
             CCreate (s2b "c"); CSetChild (0, []) 2; CReplace (0, []) 0 1 true; CFree 0].
Proof. eexists _, _. split; [|split; [|split; [|reflexivity]]]; vm_compute; try reflexivity. discriminate. Qed.
Lemma moved_ub : exists calls, exec_all idesc st0 calls = UB /\
    calls = [CParsed 0 (s2b "a"); CCreate (s2b "b"); CSetRoot 1 1; CSetChild (1, []) 0; CDocFree 0; CDocFree 1].
Proof. eexists. split; [|reflexivity]. vm_compute. reflexivity. Qed.
