(** Driving the hash model: histories, and the two idiomatic cursor loops. *)
From Verif Require Import Prelude Arr HashModel HashSpec.

Section HashExec.
Variables K D F : Type.
Variable hashf : K -> N.
Variable keq : K -> K -> bool.
Variable knull : K -> bool.
Variable dnull : D -> bool.
Variable null : D.
Notation hash := (hash K D F).

Definition hexec (h : hash) (o : hop K D F) : res (hash * hans D) :=
  match o with
  | HInsert k kd d dd => h <- hash_insert_full K D F hashf keq h k kd d dd ;; Ok (h, HUnit)
  | HRemove k => '(h, b) <- hash_remove K D F hashf keq h k ;; Ok (h, HBool b)
  | HDelete k => '(h, b) <- hash_delete K D F hashf keq h k ;; Ok (h, HBool b)
  | HDeferred k =>
    '(h, o) <- hash_remove_deferred K D F hashf keq h k ;;
    Ok (deferred_cleanup K D F knull dnull h o, HBool (match o with Some _ => true | None => false end))
  | HGet k => d <- hash_get K D F hashf keq null h k ;; Ok (h, HData d)
  | HExists k => b <- hash_exists K D F hashf keq h k ;; Ok (h, HBool b)
  | HItems => Ok (h, HInt (hash_items K D F h))
  end.
Fixpoint hexec_all (h : hash) (ops : list (hop K D F)) : res (hash * list (hans D)) :=
  match ops with
  | [] => Ok (h, [])
  | o :: r => '(h, a) <- hexec h o ;; '(h, l) <- hexec_all h r ;; Ok (h, a :: l)
  end.

(** the call of a destroy handler *)
Definition ev (p : F * (K + D)) : devent K D F :=
  match p with (f, inl k) => DKey K D F f k | (f, inr d) => DData K D F f d end.

(** the pairs currently stored, in table order *)
Definition pairs (h : hash) : list (K * D) :=
  map (fun n => (h_key K D F n, h_data K D F n)) (concat (table K D F h)).

(** what axl_hash_foreach shows to a handler that stops at the first pair
    satisfying [stop] *)
Definition foreach_pairs (stop : K -> D -> bool) (h : hash) : list (K * D) :=
  hash_foreach K D F (list (K * D))
    (fun n acc => (acc ++ [(h_key K D F n, h_data K D F n)], stop (h_key K D F n) (h_data K D F n))) h [].

(** cursor_first; while has_item { get_key/get_value; next } *)
Fixpoint cursor_walk (fuel : nat) (h : hash) (c : hcursor) : res (list (K * D)) :=
  match fuel with
  | O => NoFuel
  | S fuel' =>
    if cursor_has_item c then
      o <- cursor_get K D F h c ;;
      p <- of_option o ;;
      c <- cursor_next K D F h c ;;
      r <- cursor_walk fuel' h c ;;
      Ok (p :: r)
    else Ok []
  end.

(** while has_item { get; if drop then cursor_remove else cursor_next }, with the
    pairs shown to the user *)
Fixpoint cursor_filter (fuel : nat) (drop : K -> D -> bool) (h : hash) (c : hcursor)
  : res (hash * list (K * D)) :=
  match fuel with
  | O => NoFuel
  | S fuel' =>
    if cursor_has_item c then
      o <- cursor_get K D F h c ;;
      p <- of_option o ;;
      '(h, c) <- (if drop (fst p) (snd p) then cursor_remove K D F hashf keq h c
                  else c <- cursor_next K D F h c ;; Ok (h, c)) ;;
      '(h, r) <- cursor_filter fuel' drop h c ;;
      Ok (h, p :: r)
    else Ok (h, [])
  end.
End HashExec.
