(** Concrete trees: searches and visits. *)
From Verif Require Import Prelude ItemModel ItemSpec ItemExec StrModel FindModel FindSpec.
Open Scope nat_scope.
Open Scope list_scope.

Lemma bind_inv {A B} (e : res A) (k : A -> res B) v : bind e k = Ok v -> exists a, e = Ok a /\ k a = Ok v.
Proof. destruct e; try discriminate. cbn. eauto. Qed.
(** <a>text<b/><!-- --><b><c/></b></a> *)
Definition find_ops : list op :=
  [ONode; ONode; ONode; ONode; OChild 0 (KContent, 7); OChild 0 (KNode, 1); OChild 0 (KComment, 8); OChild 0 (KNode, 2); OChild 2 (KNode, 3)].
Definition find_name (n : nat) : bytes := match n with 0 => s2b "a" | 1 => s2b "b" | 2 => s2b "b" | _ => s2b "c" end.
Definition find_tree : tree := T 0 [T 1 []; T 2 [T 3 []]].
Definition find_fam : fam := match run_fam fam_new find_ops with Some s => s | None => fam_new end.
Lemma find_run : run_fam fam_new find_ops = Some find_fam.
Proof. unfold find_fam. destruct (run_fam fam_new find_ops) eqn:E; [reflexivity|]. exfalso. assert (X : match run_fam fam_new find_ops with Some _ => true | None => false end = true) by (vm_compute; reflexivity). rewrite E in X. discriminate. Qed.
Lemma find_fit : fit fam_new find_ops = true.
Proof. vm_compute. reflexivity. Qed.
Lemma find_known : known find_fam 0 = true.
Proof. vm_compute. reflexivity. Qed.
Lemma find_kids : elements (f_kids find_fam 0) = [1; 2] /\ elements (f_kids find_fam 2) = [3].
Proof. split; vm_compute; reflexivity. Qed.
Lemma find_shows s : run_fam fam_new find_ops = Some s -> shows (f_kids s) find_tree /\ known s 0 = true.
Proof.
  intros E. vm_compute in E. injection E as <-. split; [|reflexivity].
  repeat (constructor; [vm_compute; reflexivity|cbn; intros t It; repeat (destruct It as [<-|It]); try destruct It]).
Qed.
Lemma no_backtracking : exists ops s h name root l m, run_fam fam_new ops = Some s /\ fit fam_new ops = true /\ run heap_new ops = Ok h /\
  Forall plain l /\ l <> [] /\ known s root = true /\ at_path name (f_kids s) root l m /\ doc_get name h root (path_text l ++ [NUL]) = Ok None.
Proof.
  set (l := [s2b "a"; s2b "b"; s2b "c"]).
  assert (C : (h <- run heap_new find_ops ;; r <- doc_get find_name h 0 (path_text l ++ [NUL]) ;; Ok r) = Ok None) by (vm_compute; reflexivity).
  apply bind_inv in C as (h & Eh & C). apply bind_inv in C as (r & Er & C). injection C as ->.
  exists find_ops, find_fam, h, find_name, 0, l, 3. split; [exact find_run|]. split; [exact find_fit|]. split; [exact Eh|]. split.
  - assert (X : forall x, x = s2b "a" \/ x = s2b "b" \/ x = s2b "c" -> plain x) by (intros x [->|[->| ->]]; (split; [intros [I|[]]; discriminate I|split; [intros [I|[]]; discriminate I|split; discriminate]])).
    repeat (apply Forall_cons; [apply X; auto|]). apply Forall_nil.
  - split; [discriminate|]. split; [exact find_known|]. split; [|exact Er]. split; [reflexivity|]. apply (spells_down _ _ 0 2); [rewrite (proj1 find_kids); right; left; reflexivity|reflexivity|]. apply (spells_down _ _ 2 3); [rewrite (proj2 find_kids); left; reflexivity|reflexivity|]. constructor.
Qed.
Lemma star_no_children : exists ops s h name root, run_fam fam_new ops = Some s /\ fit fam_new ops = true /\ run heap_new ops = Ok h /\ known s root = true /\
  name root = s2b "a" /\ map name (elements (f_kids s root)) = [s2b "b"; s2b "b"] /\ doc_get name h root (s2b "/a/*" ++ [NUL]) = Ok None.
Proof.
  assert (C : (h <- run heap_new find_ops ;; r <- doc_get find_name h 0 (s2b "/a/*" ++ [NUL]) ;; Ok r) = Ok None) by (vm_compute; reflexivity).
  apply bind_inv in C as (h & Eh & C). apply bind_inv in C as (r & Er & C). injection C as ->.
  exists find_ops, find_fam, h, find_name, 0. split; [exact find_run|]. split; [exact find_fit|]. split; [exact Eh|]. split; [exact find_known|].
  split; [reflexivity|]. split; [rewrite (proj1 find_kids); reflexivity|exact Er].
Qed.
Lemma empty_name : exists ops s h name root l m, run_fam fam_new ops = Some s /\ fit fam_new ops = true /\ run heap_new ops = Ok h /\
  known s root = true /\ doc_get name h root (path_text l ++ [NUL]) = Ok (Some m) /\ forall m, ~ at_path name (f_kids s) root l m.
Proof.
  set (l := [s2b "a"; []; s2b "c"]).
  assert (C : (h <- run heap_new find_ops ;; r <- doc_get find_name h 0 (path_text l ++ [NUL]) ;; Ok r) = Ok (Some 0)) by (vm_compute; reflexivity).
  apply bind_inv in C as (h & Eh & C). apply bind_inv in C as (r & Er & C). injection C as ->.
  exists find_ops, find_fam, h, find_name, 0, l, 0. split; [exact find_run|]. split; [exact find_fit|]. split; [exact Eh|]. split; [exact find_known|]. split; [exact Er|].
  intros m [_ Sp]. inversion Sp as [|? c ? ? ? _ En _]; subst. destruct c as [|[|[|c]]]; discriminate En.
Qed.
