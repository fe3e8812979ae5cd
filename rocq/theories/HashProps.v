(** C09-C12: the hash table. *)
From Coq Require Import Permutation.
From Verif Require Import Prelude Arr HashModel HashSpec HashExec HashProofs HashProofs2 HashStrProofs.

(** C09 - for every hash function and every key equality that is an equivalence
    compatible with it, every history answers as a finite map. *)
Theorem C09_hash_is_finite_map :
  forall (K D F : Type) (hashf : K -> N) (keq : K -> K -> bool),
    key_ok K keq hashf ->
    forall (knull : K -> bool) (dnull : D -> bool) (null : D) (step : nat) (ops : list (hop K D F)),
      1 <= step ->
      exists h, hexec_all K D F hashf keq knull dnull null (hash_new_full K D F step) ops =
                Ok (h, snd (hspec_all K D F keq null [] ops)).
Proof. exact C09_lemma. Qed.
Print Assumptions C09_hash_is_finite_map.

(** axl_hash_string / axl_hash_equal_string on non-NULL strings, and axl_hash_int /
    axl_hash_equal_int, meet the hypothesis; the string equality is byte equality. *)
Theorem C09_string_keys : key_ok bytes skeq shash.
Proof. exact str_key_ok. Qed.
Print Assumptions C09_string_keys.
Theorem C09_string_keys_are_bytes : forall a b, skeq a b = true <-> a = b.
Proof. exact skeq_spec. Qed.
Print Assumptions C09_string_keys_are_bytes.
Theorem C09_int_keys : key_ok Z int_keq int_hash.
Proof. exact int_key_ok. Qed.
Print Assumptions C09_int_keys.

(** growth (step 2), replacement, removal on string keys *)
Example C09_case :
  let k s := s2b s in
  exists h, hexec_all bytes nat unit shash skeq (fun _ => false) (fun _ => false) 0
    (hash_new_full bytes nat unit 2)
    [HInsert (k "a"%string) None 1 None; HInsert (k "b"%string) None 2 None; HInsert (k "c"%string) None 3 None;
     HInsert (k "a"%string) None 4 None; HGet (k "a"%string); HGet (k "b"%string); HRemove (k "b"%string);
     HExists (k "b"%string); HGet (k "c"%string); HItems; HInsert (k "d"%string) None 5 None;
     HInsert (k "e"%string) None 6 None; HInsert (k "f"%string) None 7 None; HGet (k "d"%string); HItems]
  = Ok (h, [HUnit; HUnit; HUnit; HUnit; HData 4; HData 2; HBool true; HBool false; HData 3; HInt 2;
            HUnit; HUnit; HUnit; HData 5; HInt 5]).
Proof. eexists. vm_compute. reflexivity. Qed.

(** NULL string keys are outside the claim: axl_hash_equal_string says that NULL
    differs from NULL and equals every string, so it is no equality at all. *)
Theorem C09_null_string_key_refuted :
  str_keq None None = false /\ exists s, str_keq None (Some s) = true.
Proof. split; [vm_compute; reflexivity|]. exists (s2b "x"). vm_compute. reflexivity. Qed.
Print Assumptions C09_null_string_key_refuted.

(** C10 - over a whole life ending with axl_hash_free, the calls of destroy
    handlers are exactly one per handler attached by an insertion, minus those of
    the entries taken out with axl_hash_delete.  (Insertions attaching a handler to
    a NULL key or value are excluded, see the next theorem.) *)
Theorem C10_destroyed_exactly_once :
  forall (K D F : Type) (hashf : K -> N) (keq : K -> K -> bool),
    key_ok K keq hashf ->
    forall (knull : K -> bool) (dnull : D -> bool) (null : D) (step : nat) (ops : list (hop K D F)),
      1 <= step -> Forall (no_null_owed K D F knull dnull) ops ->
      exists h ans,
        hexec_all K D F hashf keq knull dnull null (hash_new_full K D F step) ops = Ok (h, ans) /\
        Permutation (hash_free K D F knull dnull h ++ map (ev K D F) (cancelled K D F keq null [] ops))
                    (map (ev K D F) (attached K D F ops)).
Proof. exact C10_lemma. Qed.
Print Assumptions C10_destroyed_exactly_once.

Example C10_case :
  let ops := [HInsert 1%Z (Some true) 10%Z (Some false); HInsert 2%Z (Some true) 20%Z (Some false);
              HInsert 1%Z (Some true) 11%Z (Some false); HDelete 2%Z; HInsert 3%Z None 30%Z (Some false);
              HRemove 3%Z] in
  Forall (no_null_owed Z Z bool (Z.eqb 0) (Z.eqb 0)) ops /\
  match hexec_all Z Z bool int_hash int_keq (Z.eqb 0) (Z.eqb 0) 0%Z (hash_new Z Z bool) ops with
  | Ok (h, _) => hash_free Z Z bool (Z.eqb 0) (Z.eqb 0) h =
      [DKey Z Z bool true 1; DData Z Z bool false 10; DData Z Z bool false 30;
       DKey Z Z bool true 1; DData Z Z bool false 11]%Z
  | _ => False
  end.
Proof.
  split; [|vm_compute; reflexivity].
  repeat constructor; simpl; intros; reflexivity || congruence.
Qed.

(** A NULL value with a handler is treated inconsistently: axl_hash_remove calls
    the handler, axl_hash_free does not. *)
Theorem C10_null_value_refuted :
  exists (ops1 ops2 : list (hop Z Z bool)) h1 a1 h2 a2,
    hexec_all Z Z bool int_hash int_keq (Z.eqb 0) (Z.eqb 0) 0%Z (hash_new Z Z bool) ops1 = Ok (h1, a1) /\
    hexec_all Z Z bool int_hash int_keq (Z.eqb 0) (Z.eqb 0) 0%Z (hash_new Z Z bool) ops2 = Ok (h2, a2) /\
    attached Z Z bool ops1 = attached Z Z bool ops2 /\
    hash_free Z Z bool (Z.eqb 0) (Z.eqb 0) h1 = [] /\
    hash_free Z Z bool (Z.eqb 0) (Z.eqb 0) h2 <> [].
Proof.
  exists [HInsert 1 None 0 (Some true)]%Z, [HInsert 1 None 0 (Some true); HRemove 1]%Z.
  do 4 eexists. split; [vm_compute; reflexivity|]. split; [vm_compute; reflexivity|].
  split; [vm_compute; reflexivity|]. split; [vm_compute; reflexivity|]. vm_compute. discriminate.
Qed.
Print Assumptions C10_null_value_refuted.

(** C11 - axl_hash_foreach shows every pair exactly once, in one fixed order,
    until the handler asks to stop. *)
Theorem C11_foreach_visits_once :
  forall (K D F : Type) (hashf : K -> N) (keq : K -> K -> bool),
    key_ok K keq hashf ->
    forall (knull : K -> bool) (dnull : D -> bool) (null : D) (step : nat) (ops : list (hop K D F)),
      1 <= step ->
      exists h ans order,
        hexec_all K D F hashf keq knull dnull null (hash_new_full K D F step) ops = Ok (h, ans) /\
        Permutation order (m_pairs (fst (hspec_all K D F keq null [] ops))) /\
        (forall stop, foreach_pairs K D F stop h = take_until stop order).
Proof. exact C11_foreach_lemma. Qed.
Print Assumptions C11_foreach_visits_once.

(** a cursor loop shows every pair exactly once and then ends *)
Theorem C11_cursor_visits_once :
  forall (K D F : Type) (hashf : K -> N) (keq : K -> K -> bool),
    key_ok K keq hashf ->
    forall (knull : K -> bool) (dnull : D -> bool) (null : D) (step : nat) (ops : list (hop K D F)),
      1 <= step ->
      exists h ans order,
        hexec_all K D F hashf keq knull dnull null (hash_new_full K D F step) ops = Ok (h, ans) /\
        Permutation order (m_pairs (fst (hspec_all K D F keq null [] ops))) /\
        cursor_walk K D F (S (length order)) h (cursor_new K D F h) = Ok order.
Proof. exact C11_walk_lemma. Qed.
Print Assumptions C11_cursor_visits_once.

(** a filtering cursor loop ends, removes exactly the pairs asked for, and shows
    every pair (at least once: what is missing is "at most once", see below) *)
Theorem C11_cursor_filter_partial :
  forall (K D F : Type) (hashf : K -> N) (keq : K -> K -> bool),
    key_ok K keq hashf ->
    forall (knull : K -> bool) (dnull : D -> bool) (null : D) (step : nat) (ops : list (hop K D F))
           (drop : K -> D -> bool),
      1 <= step ->
      exists h ans fuel h' seen,
        hexec_all K D F hashf keq knull dnull null (hash_new_full K D F step) ops = Ok (h, ans) /\
        cursor_filter K D F hashf keq fuel drop h (cursor_new K D F h) = Ok (h', seen) /\
        Permutation (pairs K D F h')
          (filter (fun p => negb (drop (fst p) (snd p))) (m_pairs (fst (hspec_all K D F keq null [] ops)))) /\
        (forall p, In p (m_pairs (fst (hspec_all K D F keq null [] ops))) -> In p seen).
Proof. exact C11_filter_lemma. Qed.
Print Assumptions C11_cursor_filter_partial.

Example C11_case :
  match hexec_all Z Z bool int_hash int_keq (Z.eqb 0) (Z.eqb 0) 0%Z (hash_new_full Z Z bool 3)
     [HInsert 1 None 10 None; HInsert 4 None 40 None; HInsert 2 None 20 None; HInsert 7 None 70 None]%Z with
  | Ok (h, _) =>
    foreach_pairs Z Z bool (fun k _ => Z.eqb k 2) h = [(7, 70); (1, 10); (2, 20)]%Z /\
    cursor_walk Z Z bool 5 h (cursor_new Z Z bool h) = Ok [(7, 70); (1, 10); (2, 20); (4, 40)]%Z /\
    match cursor_filter Z Z bool int_hash int_keq 20 (fun k _ => Z.even k) h (cursor_new Z Z bool h) with
    | Ok (h', seen) => pairs Z Z bool h' = [(7, 70); (1, 10)]%Z
    | _ => False
    end
  | _ => False
  end.
Proof. vm_compute. auto. Qed.

(** The full claim fails: after axl_hash_cursor_remove of the last pair of a
    collision chain the cursor goes back to the head of that chain, so pairs
    already kept are visited again. *)
Theorem C11_cursor_remove_revisits_refuted :
  exists (ops : list (hop Z Z bool)) h ans h' seen,
    hexec_all Z Z bool int_hash int_keq (Z.eqb 0) (Z.eqb 0) 0%Z (hash_new Z Z bool) ops = Ok (h, ans) /\
    cursor_filter Z Z bool int_hash int_keq 20 (fun k _ => Z.eqb k 1) h (cursor_new Z Z bool h) = Ok (h', seen) /\
    ~ NoDup seen.
Proof.
  exists [HInsert 1 None 10 None; HInsert 11 None 20 None]%Z. do 4 eexists.
  split; [vm_compute; reflexivity|]. split; [vm_compute; reflexivity|].
  vm_compute. intro H. inversion H as [|? ? H1 H2]. apply H1. right; left; reflexivity.
Qed.
Print Assumptions C11_cursor_remove_revisits_refuted.

(** axl_hash_cursor_last never looks at slot 0: it can point nowhere although a
    pair is stored *)
Theorem C11_cursor_last_refuted :
  exists (ops : list (hop Z Z bool)) h ans c,
    hexec_all Z Z bool int_hash int_keq (Z.eqb 0) (Z.eqb 0) 0%Z (hash_new Z Z bool) ops = Ok (h, ans) /\
    hash_items Z Z bool h = 1%Z /\
    cursor_last Z Z bool h = Ok c /\ cursor_has_item c = false.
Proof.
  exists [HInsert 10 None 20 None]%Z. do 3 eexists.
  split; [vm_compute; reflexivity|]. split; [vm_compute; reflexivity|].
  split; vm_compute; reflexivity.
Qed.
Print Assumptions C11_cursor_last_refuted.

(** axl_hash_cursor_first on a table that became empty leaves the cursor on the
    removed pair: the cursor still "has an item" and using it reads a released node *)
Theorem C11_cursor_first_stale_refuted :
  exists h ans c h' b,
    hexec_all Z Z bool int_hash int_keq (Z.eqb 0) (Z.eqb 0) 0%Z (hash_new Z Z bool)
      [HInsert 10 None 20 None]%Z = Ok (h, ans) /\
    c = cursor_new Z Z bool h /\
    hash_remove Z Z bool int_hash int_keq h 10%Z = Ok (h', b) /\
    hash_items Z Z bool h' = 0%Z /\
    cursor_has_item (cursor_first Z Z bool h' c) = true /\
    cursor_get Z Z bool h' (cursor_first Z Z bool h' c) = UB.
Proof.
  do 5 eexists. split; [vm_compute; reflexivity|]. split; [reflexivity|].
  split; [vm_compute; reflexivity|]. repeat split; vm_compute; reflexivity.
Qed.
Print Assumptions C11_cursor_first_stale_refuted.

(** C12 - whatever is asked of a copy afterwards, it answers as the finite map
    whose entries are the copied entries of the original; [rep] is the pair of
    handlers given to axl_hash_copy_full ([None] for axl_hash_copy). *)
Theorem C12_copy_equal :
  forall (K D F : Type) (hashf : K -> N) (keq : K -> K -> bool),
    key_ok K keq hashf ->
    forall (knull : K -> bool) (dnull : D -> bool) (null : D)
           (kc : K -> option F -> D -> option F -> K) (vc : K -> option F -> D -> option F -> D),
      (forall k kd d dd, keq (kc k kd d dd) k = true) ->
      forall (step : nat) (ops : list (hop K D F)) (rep : option (option F * option F)) (ops2 : list (hop K D F)),
        1 <= step ->
        exists h ans r r',
          hexec_all K D F hashf keq knull dnull null (hash_new_full K D F step) ops = Ok (h, ans) /\
          hash_copy K D F hashf keq
            (fun n => kc (h_key K D F n) (h_kd K D F n) (h_data K D F n) (h_dd K D F n))
            (fun n => vc (h_key K D F n) (h_kd K D F n) (h_data K D F n) (h_dd K D F n)) h rep = Ok r /\
          hexec_all K D F hashf keq knull dnull null r ops2 =
            Ok (r', snd (hspec_all K D F keq null
                          (map (fun e => set_handlers rep (cpe kc vc e)) (fst (hspec_all K D F keq null [] ops)))
                          ops2)).
Proof. exact C12_lemma. Qed.
Print Assumptions C12_copy_equal.

Example C12_case :
  match hexec_all Z Z bool int_hash int_keq (Z.eqb 0) (Z.eqb 0) 0%Z (hash_new_full Z Z bool 2)
     [HInsert 1 None 10 None; HInsert 4 None 40 None; HInsert 2 None 20 None]%Z with
  | Ok (h, _) =>
    match hash_copy Z Z bool int_hash int_keq (fun n => h_key _ _ _ n) (fun n => h_data _ _ _ n + 1)%Z h None with
    | Ok r => hash_get Z Z bool int_hash int_keq 0%Z r 4%Z = Ok 41%Z /\
              hash_get Z Z bool int_hash int_keq 0%Z r 3%Z = Ok 0%Z /\ hash_items Z Z bool r = 3%Z
    | _ => False
    end
  | _ => False
  end.
Proof. vm_compute. auto. Qed.
