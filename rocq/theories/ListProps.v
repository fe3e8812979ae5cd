(** Properties C01-C06: axlList. *)
From Verif Require Import Prelude ListModel ListSpec ListExec ListProofs ListProofs2.
Open Scope Z_scope.

(** C01 - whatever the comparison function, every history of positional calls
    runs without undefined behaviour and gives the answers, the destroy calls and
    the final contents of the ideal sequence. *)
Theorem C01_list_is_sequence :
  forall (D : Type) (null : D) (deqb : D -> D -> bool) (cmp : D -> D -> Z) (has_destroy : bool)
         add exi (ops : list (op D)),
    Forall positional ops ->
    exists s ans,
      run D null deqb cmp has_destroy (list_new D) ops = Ok (s, ans) /\
      spec_run D null deqb cmp has_destroy add exi [] ops = (contents D s, dtrace D s, ans).
Proof. exact C01_lemma. Qed.
Print Assumptions C01_list_is_sequence.

(** a history meeting the hypotheses, with its expected outcome *)
Example C01_case :
  let ops := [OAppend 5; OPrepend 3; OAddAt 4 1; OAddAt 9 77; ORemoveAt 1 true;
              OAppend 6; ORemoveLast false; OGetNth (-1); OGetNth 2; ORemovePtr 5 true;
              OLength; OAddAt 1 (-4); OGetFirst; OGetLast] in
  Forall positional ops /\
  match run Z 0 Z.eqb list_equal_int true (list_new Z) ops with
  | Ok (s, ans) => contents Z s = [1; 3; 9] /\ dtrace Z s = [4; 5] /\
      ans = [AUnit; AUnit; AUnit; AUnit; AUnit; AUnit; AUnit; AData 0; AData 9; AUnit;
             AInt 2; AUnit; AData 1; AData 9]
  | _ => False
  end.
Proof. split; [repeat constructor|vm_compute; auto]. Qed.

(** C02 - under a comparison function that is the sign of a total order, a list
    driven by axl_list_add / axl_list_remove is strictly ordered and holds exactly
    the live elements. *)
Theorem C02_add_keeps_order :
  forall (D : Type) (null : D) (deqb : D -> D -> bool) (cmp : D -> D -> Z) (has_destroy : bool)
         (lt : D -> D -> Prop), order_cmp cmp lt ->
  forall ops : list (op D), Forall ordered_op ops ->
    exists s ans,
      run D null deqb cmp has_destroy (list_new D) ops = Ok (s, ans) /\
      increasing lt (contents D s) /\
      (forall y, In y (contents D s) <-> live ops y).
Proof. exact C02_lemma. Qed.
Print Assumptions C02_add_keeps_order.

(** adding an element equal to a stored one leaves the sequence unchanged *)
Theorem C02_add_equal_noop :
  forall (D : Type) (null : D) (deqb : D -> D -> bool) (cmp : D -> D -> Z) (has_destroy : bool)
         (lt : D -> D -> Prop), order_cmp cmp lt ->
  forall (ops : list (op D)) (x : D), Forall ordered_op ops -> live ops x ->
    exists s ans s',
      run D null deqb cmp has_destroy (list_new D) ops = Ok (s, ans) /\
      list_add D null cmp s x = Ok s' /\ contents D s' = contents D s.
Proof. exact C02_equal_lemma. Qed.
Print Assumptions C02_add_equal_noop.

(** the two ordering functions of the library are total orders *)
Theorem C02_equal_int_is_order : order_cmp list_equal_int (fun a b => b < a).
Proof. exact equal_int_order. Qed.
Print Assumptions C02_equal_int_is_order.
Theorem C02_order_string_is_order : order_cmp list_order_string strlt.
Proof. exact order_string_order. Qed.
Print Assumptions C02_order_string_is_order.

Example C02_case :
  let ops := [OAdd 5; OAdd 1; OAdd 9; OAdd 4; OAdd 5; ORemove 9 true; OAdd 7] in
  Forall ordered_op ops /\
  match run Z 0 Z.eqb list_equal_int true (list_new Z) ops with
  | Ok (s, _) => contents Z s = [7; 5; 4; 1]
  | _ => False
  end.
Proof. split; [repeat constructor|vm_compute; reflexivity]. Qed.

(** ... but axl_list_equal_int does not order "from small to big" as its
    documentation says: it orders from big to small. *)
Theorem C02_equal_int_small_to_big_refuted :
  exists ops s ans,
    Forall ordered_op ops /\
    run Z 0 Z.eqb list_equal_int true (list_new Z) ops = Ok (s, ans) /\
    ~ increasing Z.lt (contents Z s).
Proof.
  exists [OAdd 1; OAdd 2].
  destruct (run Z 0 Z.eqb list_equal_int true (list_new Z) [OAdd 1; OAdd 2]) as [[s ans]| |] eqn:E;
    [|vm_compute in E; discriminate|vm_compute in E; discriminate].
  exists s, ans. split; [repeat constructor|]. split; [reflexivity|].
  assert (C : contents Z s = [2; 1]).
  { vm_compute in E. inversion E; subst. vm_compute. reflexivity. }
  rewrite C. intro H. inversion H as [|? ? A _]; subst. specialize (A 1 (or_introl eq_refl)). lia.
Qed.
Print Assumptions C02_equal_int_small_to_big_refuted.

(** C03 - axl_list_exists answers exactly whether the (non NULL) probe is live. *)
Theorem C03_exists_iff_live_partial :
  forall (D : Type) (null : D) (deqb : D -> D -> bool) (cmp : D -> D -> Z) (has_destroy : bool)
         (lt : D -> D -> Prop), order_cmp cmp lt ->
  forall (ops : list (op D)) (x : D), Forall ordered_op ops -> deqb x null = false ->
    exists s ans b,
      run D null deqb cmp has_destroy (list_new D) ops = Ok (s, ans) /\
      list_exists D null deqb cmp s x = Ok b /\ (b = true <-> live ops x).
Proof. exact C03_lemma. Qed.
Print Assumptions C03_exists_iff_live_partial.

Example C03_case :
  let ops := [OAdd 5; OAdd 1; OAdd 9; OAdd 4; ORemove 9 true] in
  live ops 4 /\ ~ live ops 9 /\
  match run Z 0 Z.eqb list_equal_int true (list_new Z) ops with
  | Ok (s, _) => list_exists Z 0 Z.eqb list_equal_int s 4 = Ok true /\
                 list_exists Z 0 Z.eqb list_equal_int s 9 = Ok false
  | _ => False
  end.
Proof.
  split; [|split].
  - exists [OAdd 5; OAdd 1; OAdd 9], [ORemove 9 true]. split; [reflexivity|].
    intros also [H|[]]. inversion H.
  - intros [b [a [E N]]].
    do 6 (destruct b as [|? b]; [simpl in E; inversion E; subst; eapply N; simpl; eauto 10|simpl in E; inversion E as [[E1 E2]]; clear E E1; rename E2 into E]).
  - vm_compute. auto.
Qed.

(** The full claim fails for three shipped comparison situations: a middle
    element under axl_list_equal_string, *)
Theorem C03_exists_equal_string_refuted :
  exists ops x s ans,
    run bytes [] bytes_eqb list_equal_string true (list_new bytes) ops = Ok (s, ans) /\
    In x (contents bytes s) /\ x <> [] /\
    list_exists bytes [] bytes_eqb list_equal_string s x = Ok false.
Proof.
  exists [OAdd (s2b "a"); OAdd (s2b "b"); OAdd (s2b "c")], (s2b "b").
  eexists _, _. split; [vm_compute; reflexivity|]. vm_compute.
  split; [right; left; reflexivity|]. split; [discriminate|reflexivity].
Qed.
Print Assumptions C03_exists_equal_string_refuted.

(** a non-first element under axl_list_equal_ptr, *)
Theorem C03_exists_equal_ptr_refuted :
  exists ops x s ans,
    run Z 0 Z.eqb list_equal_ptr true (list_new Z) ops = Ok (s, ans) /\
    In x (contents Z s) /\ x <> 0 /\
    list_exists Z 0 Z.eqb list_equal_ptr s x = Ok false.
Proof.
  exists [OAppend 1; OAppend 2], 2.
  eexists _, _. split; [vm_compute; reflexivity|]. vm_compute.
  split; [right; left; reflexivity|]. split; [discriminate|reflexivity].
Qed.
Print Assumptions C03_exists_equal_ptr_refuted.

(** and the integer 0 (a NULL pointer) under axl_list_equal_int. *)
Theorem C03_exists_zero_refuted :
  exists ops s ans,
    run Z 0 Z.eqb list_equal_int true (list_new Z) ops = Ok (s, ans) /\
    In 0 (contents Z s) /\ list_exists Z 0 Z.eqb list_equal_int s 0 = Ok false.
Proof.
  exists [OAdd 0]. eexists _, _. split; [vm_compute; reflexivity|]. vm_compute. auto.
Qed.
Print Assumptions C03_exists_zero_refuted.

(** C04 - no cell is ever shared, whatever the history; *)
Theorem C04_cells_never_shared :
  forall (D : Type) (null : D) (deqb : D -> D -> bool) (cmp : D -> D -> Z) (has_destroy : bool)
         (ops : list (op D)),
    exists s ans sp,
      run D null deqb cmp has_destroy (list_new D) ops = Ok (s, ans) /\
      spares D s = map Some sp /\ NoDup (linked D s ++ sp) /\
      length (linked D s) = length (contents D s) /\
      (forall a, In a (linked D s ++ sp) -> (a < fresh D s)%nat).
Proof. exact C04_shared_lemma. Qed.
Print Assumptions C04_cells_never_shared.

(** and no cell is forgotten: every allocated cell is linked or spare, as long as
    axl_list_add is not called ... *)
Theorem C04_cells_never_lost_positional :
  forall (D : Type) (null : D) (deqb : D -> D -> bool) (cmp : D -> D -> Z) (has_destroy : bool)
         (ops : list (op D)),
    Forall (fun o => match o with OAdd _ => False | _ => True end) ops ->
    exists s ans sp,
      run D null deqb cmp has_destroy (list_new D) ops = Ok (s, ans) /\
      spares D s = map Some sp /\ NoDup (linked D s ++ sp) /\
      (forall a, (a < fresh D s)%nat <-> In a (linked D s ++ sp)).
Proof. exact C04_noadd_lemma. Qed.
Print Assumptions C04_cells_never_lost_positional.

(** ... or is only called with elements that are not in the list yet. *)
Theorem C04_cells_never_lost_partial :
  forall (D : Type) (null : D) (deqb : D -> D -> bool) (cmp : D -> D -> Z) (has_destroy : bool)
         (lt : D -> D -> Prop), order_cmp cmp lt ->
  forall ops : list (op D), Forall ordered_op ops ->
    (forall before x after, ops = before ++ OAdd x :: after -> ~ live before x) ->
    exists s ans sp,
      run D null deqb cmp has_destroy (list_new D) ops = Ok (s, ans) /\
      spares D s = map Some sp /\ NoDup (linked D s ++ sp) /\
      (forall a, (a < fresh D s)%nat <-> In a (linked D s ++ sp)).
Proof. exact C04_ordered_lemma. Qed.
Print Assumptions C04_cells_never_lost_partial.

(** axl_list_free releases every cell once and destroys every element once. *)
Theorem C04_free_releases_all :
  forall (D : Type) (null : D) (deqb : D -> D -> bool) (cmp : D -> D -> Z) (has_destroy : bool)
         (ops : list (op D)),
    Forall (fun o => match o with OAdd _ => False | _ => True end) ops ->
    exists s ans dt freed,
      run D null deqb cmp has_destroy (list_new D) ops = Ok (s, ans) /\
      list_free D has_destroy s = Ok (dt, freed) /\ NoDup freed /\
      (forall a, (a < fresh D s)%nat <-> In a freed) /\
      dt = dtrace D s ++ (if has_destroy then contents D s else []).
Proof. exact C04_free_lemma. Qed.
Print Assumptions C04_free_releases_all.

Example C04_case :
  let ops := [OAppend 5; OAppend 6; ORemoveFirst true; OPrepend 2; OPrepend 3; ORemoveLast false] in
  match run Z 0 Z.eqb list_equal_int true (list_new Z) ops with
  | Ok (s, _) => linked Z s = [2; 0]%nat /\ spares Z s = [Some 1%nat] /\ fresh Z s = 3%nat /\
                 list_free Z true s = Ok ([5; 3; 2], [2; 0; 1]%nat)
  | _ => False
  end.
Proof. vm_compute. auto. Qed.

(** The full claim is false: adding an element that is already present takes a
    cell from the pool and forgets it (a leak: axl_list_free does not see it). *)
Theorem C04_cells_never_lost_refuted :
  exists (ops : list (op Z)) s ans a dt freed,
    run Z 0 Z.eqb list_equal_int true (list_new Z) ops = Ok (s, ans) /\
    (a < fresh Z s)%nat /\ ~ In a (linked Z s) /\ ~ In (Some a) (spares Z s) /\
    list_free Z true s = Ok (dt, freed) /\ ~ In a freed.
Proof.
  exists [OAdd 7; OAdd 7].
  eexists _, _, 1%nat, _, _. split; [vm_compute; reflexivity|].
  split; [vm_compute; lia|]. vm_compute.
  split; [intros [|[]]; discriminate|]. split; [intros []|].
  split; [reflexivity|]. intros [|[]]; discriminate.
Qed.
Print Assumptions C04_cells_never_lost_refuted.

(** C05 - cursors *)
Theorem C05_cursor_enumerates :
  forall (D : Type) (null : D) (deqb : D -> D -> bool) (cmp : D -> D -> Z) (has_destroy : bool)
         (ops : list (op D)),
    exists s ans,
      run D null deqb cmp has_destroy (list_new D) ops = Ok (s, ans) /\
      exists bound, forall fuel, (bound <= fuel)%nat ->
        cursor_walk null fuel s (cursor_first D s) = Ok (contents D s).
Proof. exact C05_enum_lemma. Qed.
Print Assumptions C05_cursor_enumerates.

Theorem C05_cursor_enumerates_backwards :
  forall (D : Type) (null : D) (deqb : D -> D -> bool) (cmp : D -> D -> Z) (has_destroy : bool)
         (ops : list (op D)),
    exists s ans,
      run D null deqb cmp has_destroy (list_new D) ops = Ok (s, ans) /\
      exists bound, forall fuel, (bound <= fuel)%nat ->
        cursor_walk_back null fuel s (cursor_last D s) = Ok (rev (contents D s)).
Proof. exact C05_back_lemma. Qed.
Print Assumptions C05_cursor_enumerates_backwards.

(** removing under the cursor: [k] is the position of the cursor *)
Theorem C05_cursor_remove :
  forall (D : Type) (null : D) (deqb : D -> D -> bool) (cmp : D -> D -> Z) (has_destroy : bool)
         (ops : list (op D)) (k : nat) (also : bool) (cur : nat) s ans,
    run D null deqb cmp has_destroy (list_new D) ops = Ok (s, ans) ->
    nth_error (linked D s) k = Some cur ->
    exists s' cur' d,
      cursor_remove D has_destroy s (Some cur) also = Ok (s', cur') /\
      nth_error (contents D s) k = Some d /\
      contents D s' = delete_at D (contents D s) k /\
      dtrace D s' = dtrace D s ++ (if also && has_destroy then [d] else []) /\
      cur' = nth_error (linked D s')
               (if (S k <? length (contents D s))%nat then k else (k - 1)%nat).
Proof. exact C05_remove_lemma. Qed.
Print Assumptions C05_cursor_remove.

(** the filtering loop removes exactly the chosen elements *)
Theorem C05_cursor_filter :
  forall (D : Type) (null : D) (deqb : D -> D -> bool) (cmp : D -> D -> Z) (has_destroy : bool)
         (ops : list (op D)) (drop : D -> bool) (also : bool),
    exists s ans,
      run D null deqb cmp has_destroy (list_new D) ops = Ok (s, ans) /\
      exists bound, forall fuel, (bound <= fuel)%nat ->
        exists s', cursor_filter null has_destroy also drop fuel s (cursor_first D s) = Ok s' /\
          contents D s' = filter (fun d => negb (drop d)) (contents D s).
Proof. exact C05_filter_lemma. Qed.
Print Assumptions C05_cursor_filter.

Example C05_case :
  match run Z 0 Z.eqb list_equal_int true (list_new Z) [OAppend 1; OAppend 2; OAppend 3; OAppend 4] with
  | Ok (s, _) =>
    cursor_walk 0 9 s (cursor_first Z s) = Ok [1; 2; 3; 4] /\
    match cursor_filter 0 true true Z.even 20 s (cursor_first Z s) with
    | Ok s' => contents Z s' = [1; 3] /\ dtrace Z s' = [2; 4]
    | _ => False
    end
  | _ => False
  end.
Proof. vm_compute. auto. Qed.

(** C06 - axl_list_copy gives an equal list for ordered lists ... *)
Theorem C06_copy_ordered_partial :
  forall (D : Type) (null : D) (deqb : D -> D -> bool) (cmp : D -> D -> Z) (has_destroy : bool)
         (lt : D -> D -> Prop) (ops : list (op D)),
    order_cmp cmp lt -> Forall ordered_op ops ->
    exists s ans r,
      run D null deqb cmp has_destroy (list_new D) ops = Ok (s, ans) /\
      list_copy D null cmp s (fun d => d) = Ok r /\ contents D r = contents D s.
Proof. exact C06_sorted_lemma. Qed.
Print Assumptions C06_copy_ordered_partial.

(** ... and for axl_list_always_return_1, whatever the history. *)
Theorem C06_copy_always_1_partial :
  forall (D : Type) (null : D) (deqb : D -> D -> bool) (cmp : D -> D -> Z) (has_destroy : bool)
         (ops : list (op D)),
    (forall a b, cmp a b = 1) ->
    exists s ans r,
      run D null deqb cmp has_destroy (list_new D) ops = Ok (s, ans) /\
      list_copy D null cmp s (fun d => d) = Ok r /\ contents D r = contents D s.
Proof. exact C06_always1_lemma. Qed.
Print Assumptions C06_copy_always_1_partial.

Example C06_case :
  match run Z 0 Z.eqb list_equal_int true (list_new Z) [OAdd 1; OAdd 2; OAdd 3] with
  | Ok (s, _) => match list_copy Z 0 list_equal_int s (fun d => d) with
                 | Ok r => contents Z r = [3; 2; 1] | _ => False end
  | _ => False
  end.
Proof. vm_compute. auto. Qed.

(** The full claim is false: a list compared by axl_list_equal_ptr is reversed by
    the copy, and repeated elements can disappear. *)
Theorem C06_copy_refuted :
  exists (ops : list (op Z)) s ans r,
    run Z 0 Z.eqb list_equal_ptr true (list_new Z) ops = Ok (s, ans) /\
    list_copy Z 0 list_equal_ptr s (fun d => d) = Ok r /\ contents Z r <> contents Z s.
Proof.
  exists [OAppend 1; OAppend 2]. eexists _, _, _. split; [vm_compute; reflexivity|].
  split; [vm_compute; reflexivity|]. vm_compute. discriminate.
Qed.
Print Assumptions C06_copy_refuted.
Theorem C06_copy_drops_refuted :
  exists (ops : list (op Z)) s ans r,
    run Z 0 Z.eqb list_equal_int true (list_new Z) ops = Ok (s, ans) /\
    list_copy Z 0 list_equal_int s (fun d => d) = Ok r /\
    (length (contents Z r) < length (contents Z s))%nat.
Proof.
  exists [OAppend 1; OAppend 1]. eexists _, _, _. split; [vm_compute; reflexivity|].
  split; [vm_compute; reflexivity|]. vm_compute. lia.
Qed.
Print Assumptions C06_copy_drops_refuted.
