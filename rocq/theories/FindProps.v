(** Searching and visiting. *)
From Verif Require Import Prelude ItemModel ItemSpec ItemExec StrModel FindModel FindSpec FindProofs4 FindCases.
From Coq Require Import Permutation.
Open Scope nat_scope.
Open Scope list_scope.

(** C29: with a handler that goes on and removes nothing, every element is visited once, in
    document order, or level after level *)
Theorem C29_everything_once : forall ops s, run_fam fam_new ops = Some s -> fit fam_new ops = true -> exists h, run heap_new ops = Ok h /\
  forall t fuel, known s (label t) = true -> shows (f_kids s) t -> length (pre t) <= fuel ->
  NoDup (pre t) /\
  (exists h' seen, iterate always fuel h (label t) Deep = Ok (h', seen, true) /\ map fst seen = pre t) /\
  (exists h' seen k, iterate always fuel h (label t) Wide = Ok (h', seen, true) /\ map fst seen = levels k [t] /\ Permutation (map fst seen) (pre t)).
Proof. exact visit_all. Qed.
Print Assumptions C29_everything_once.
(** with any handler, the calls are those of [deep]: it stops when told, and does not enter what
    has been removed; and in the end exactly the removed elements are missing *)
Theorem C29_document_order : forall ops s, run_fam fam_new ops = Some s -> fit fam_new ops = true -> exists h, run heap_new ops = Ok h /\
  forall decide t fuel, known s (label t) = true -> shows (f_kids s) t -> length (pre t) <= fuel ->
  (v_removed (decide [(label t, None)]) = true -> exists q, parent s (label t) = Some q) ->
  let (seen, b) := deep decide None t [] in
  exists h', iterate decide fuel h (label t) Deep = Ok (h', seen, b && negb (v_removed (decide [(label t, None)]))) /\
    forall p, known s p = true -> items_shown h' (without s (gone decide [] seen)) p.
Proof. exact visit_deep. Qed.
Print Assumptions C29_document_order.
Theorem C29_level_order : forall ops s, run_fam fam_new ops = Some s -> fit fam_new ops = true -> exists h, run heap_new ops = Ok h /\
  forall decide t fuel, known s (label t) = true -> shows (f_kids s) t -> length (pre t) <= fuel ->
  (v_removed (decide [(label t, None)]) = true -> exists q, parent s (label t) = Some q) ->
  exists seen b h', wide decide [(t, None)] [] seen b /\ iterate decide fuel h (label t) Wide = Ok (h', seen, b && negb (v_removed (decide [(label t, None)]))) /\
    forall p, known s p = true -> items_shown h' (without s (gone decide [] seen)) p.
Proof. exact visit_wide. Qed.
Print Assumptions C29_level_order.

(** the first <b> is removed, the visit stops at <c> *)
Definition C29_decide (seen : calls) : verdict := Verdict (negb (Nat.eqb (length seen) 4)) (Nat.eqb (length seen) 2).
Example C29_case : fit fam_new find_ops = true /\
  option_map (fun s => (known s 0, f_kids s 0)) (run_fam fam_new find_ops) = Some (true, [(KContent, 7); (KNode, 1); (KComment, 8); (KNode, 2)]) /\
  (forall s, run_fam fam_new find_ops = Some s -> shows (f_kids s) find_tree /\ known s 0 = true) /\
  deep C29_decide None find_tree [] = ([(0, None); (1, Some 0); (2, Some 0); (3, Some 2)], false) /\
  gone C29_decide [] [(0, None); (1, Some 0); (2, Some 0); (3, Some 2)] = [1] /\ v_removed (C29_decide [(0, None)]) = false.
Proof. split; [reflexivity|]. split; [vm_compute; reflexivity|]. split; [exact find_shows|]. repeat split; vm_compute; reflexivity. Qed.

(** C30: what is found is at the path *)
Theorem C30_sound : forall ops s, run_fam fam_new ops = Some s -> fit fam_new ops = true -> forall name, exists h, run heap_new ops = Ok h /\
  forall root l rest, Forall plain l -> l <> [] -> known s root = true ->
  exists r, doc_get name h root (path_text l ++ NUL :: rest) = Ok r /\ forall m, r = Some m -> at_path name (f_kids s) root l m.
Proof. exact path_sound. Qed.
Print Assumptions C30_sound.
(** Missing for the full statement: trees in which siblings have the same name; see
    [C30_refuted]. *)
Theorem C30_complete_partial : forall ops s, run_fam fam_new ops = Some s -> fit fam_new ops = true -> forall name, unique_names name s -> exists h, run heap_new ops = Ok h /\
  forall root l rest m, Forall plain l -> l <> [] -> known s root = true ->
  at_path name (f_kids s) root l m -> doc_get name h root (path_text l ++ NUL :: rest) = Ok (Some m).
Proof. exact path_complete. Qed.
Print Assumptions C30_complete_partial.
(** /a/b/c is not found in <a><b/><b><c/></b></a> *)
Theorem C30_refuted : exists ops s h name root l m, run_fam fam_new ops = Some s /\ fit fam_new ops = true /\ run heap_new ops = Ok h /\
  Forall plain l /\ l <> [] /\ known s root = true /\ at_path name (f_kids s) root l m /\ doc_get name h root (path_text l ++ [NUL]) = Ok None.
Proof. exact no_backtracking. Qed.
Print Assumptions C30_refuted.
(** /a//c gives <a>: what follows an empty name is not looked at *)
Theorem C30_empty_refuted : exists ops s h name root l m, run_fam fam_new ops = Some s /\ fit fam_new ops = true /\ run heap_new ops = Ok h /\
  known s root = true /\ doc_get name h root (path_text l ++ [NUL]) = Ok (Some m) /\ forall m, ~ at_path name (f_kids s) root l m.
Proof. exact empty_name. Qed.
Print Assumptions C30_empty_refuted.
(** a star before the last name: /a/*/c is never resolved, even when an element is
    called "*" *)
Theorem C30_star : forall ops s, run_fam fam_new ops = Some s -> fit fam_new ops = true -> forall name, exists h, run heap_new ops = Ok h /\
  forall root l more rest, Forall plain l -> l <> [] -> Forall segment more -> known s root = true ->
  more <> [] -> doc_get name h root (path_text (l ++ [star] ++ more) ++ NUL :: rest) = Ok None.
Proof. exact star_rejected. Qed.
Print Assumptions C30_star.
Definition C30_star_name (n : nat) : bytes := match n with 0 => s2b "a" | 1 => s2b "b" | 2 => s2b "*" | _ => s2b "c" end.
Example C30_star_case : (h <- run heap_new find_ops ;; doc_get C30_star_name h 0 (s2b "/a/*/c" ++ [NUL])) = Ok None /\
  (h <- run heap_new find_ops ;; doc_get C30_star_name h 0 (s2b "/a/*" ++ [NUL])) = Ok (Some 2).
Proof. split; vm_compute; reflexivity. Qed.
(** /a/* does not give the elements inside <a>, as documented, but nothing, in every
    tree in which no element is called "*" *)
Theorem C30_star_last : forall ops s, run_fam fam_new ops = Some s -> fit fam_new ops = true -> forall name, (forall n, name n <> star) -> exists h, run heap_new ops = Ok h /\
  forall root l rest, Forall plain l -> l <> [] -> known s root = true ->
  doc_get name h root (path_text (l ++ [star]) ++ NUL :: rest) = Ok None.
Proof. exact star_nothing. Qed.
Print Assumptions C30_star_last.
Theorem C30_star_refuted : exists ops s h name root, run_fam fam_new ops = Some s /\ fit fam_new ops = true /\ run heap_new ops = Ok h /\ known s root = true /\
  name root = s2b "a" /\ map name (elements (f_kids s root)) = [s2b "b"; s2b "b"] /\ doc_get name h root (s2b "/a/*" ++ [NUL]) = Ok None.
Proof. exact star_no_children. Qed.
Print Assumptions C30_star_refuted.
(** with distinct names: /a/d/c *)
Definition C30_name (n : nat) : bytes := match n with 0 => s2b "a" | 1 => s2b "b" | 2 => s2b "d" | _ => s2b "c" end.
Example C30_case : (h <- run heap_new find_ops ;; doc_get C30_name h 0 (s2b "/a/d/c" ++ [NUL])) = Ok (Some 3) /\
  option_map (fun s => map (fun p => map C30_name (elements (f_kids s p))) (f_nodes s)) (run_fam fam_new find_ops) = Some [[]; [s2b "c"]; []; [s2b "b"; s2b "d"]] /\
  path_text [s2b "a"; s2b "d"; s2b "c"] = s2b "/a/d/c".
Proof. repeat split; vm_compute; reflexivity. Qed.

(** C47 *)
Theorem C47_children : forall ops s, run_fam fam_new ops = Some s -> fit fam_new ops = true -> forall name, exists h, run heap_new ops = Ok h /\
  forall p, known s p = true ->
  get_childs h p = Ok (elements (f_kids s p)) /\ get_child_num h p = Ok (length (elements (f_kids s p))) /\
  have_childs h p = Ok (negb (Nat.eqb (length (elements (f_kids s p))) 0)) /\
  (forall i, get_child_nth h p (Z.of_nat i) = Ok (nth_error (elements (f_kids s p)) i)) /\ (forall i, (i < 0)%Z -> get_child_nth h p i = Ok None) /\
  (forall x, get_child_called name h p x = Ok (called name x (elements (f_kids s p)))).
Proof. exact children. Qed.
Print Assumptions C47_children.
Theorem C47_siblings : forall ops s, run_fam fam_new ops = Some s -> fit fam_new ops = true -> forall name, exists h, run heap_new ops = Ok h /\
  forall p n l1 l2 x, known s p = true -> f_kids s p = l1 ++ (KNode, n) :: l2 ->
  get_next_called name h n x = Ok (called name x (elements l2)) /\ get_previous_called name h n x = Ok (called name x (rev (elements l1))).
Proof. exact siblings. Qed.
Print Assumptions C47_siblings.
(** the children are looked at before their own descendants *)
Theorem C47_find : forall ops s, run_fam fam_new ops = Some s -> fit fam_new ops = true -> forall name, exists h, run heap_new ops = Ok h /\
  forall t x fuel, known s (label t) = true -> shows (f_kids s) t -> length (pre t) <= fuel -> find_called name fuel h x (label t) = Ok (called name x (below t)).
Proof. exact finding. Qed.
Print Assumptions C47_find.
(** and nothing else is looked at *)
Theorem C47_below : forall t, Permutation (pre t) (label t :: below t).
Proof. exact pre_below. Qed.
Print Assumptions C47_below.
Example C47_case : (h <- run heap_new find_ops ;; r <- find_called find_name 4 h (s2b "c") 0 ;; c <- get_child_called find_name h 0 (s2b "b") ;;
  k <- get_child_num h 0 ;; n <- get_next_called find_name h 1 (s2b "b") ;; Ok (r, c, k, n)) = Ok (Some 3, Some 1, 2, Some 2).
Proof. vm_compute. reflexivity. Qed.
