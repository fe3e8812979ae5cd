(** What a user expects of a hash: a finite map keyed up to the key equality,
    together with the accounting of the destroy handlers. *)
From Verif Require Import Prelude.

Section HashSpec.
Variables K D F : Type.
Variable keq : K -> K -> bool.
Variable null : D.

(** a key equality is an equivalence compatible with the hash function *)
Definition key_ok (hashf : K -> N) : Prop :=
  (forall a, keq a a = true) /\
  (forall a b, keq a b = keq b a) /\
  (forall a b c, keq a b = true -> keq b c = true -> keq a c = true) /\
  (forall a b, keq a b = true -> hashf a = hashf b).

(** an entry: key, its destroy handler, value, its destroy handler *)
Record entry := Entry { e_key : K; e_kd : option F; e_data : D; e_dd : option F }.

Definition fmap := list entry.
Definition m_find (m : fmap) (k : K) : option entry := find (fun e => keq (e_key e) k) m.
Definition m_del (m : fmap) (k : K) : fmap := filter (fun e => negb (keq (e_key e) k)) m.
Definition m_put (m : fmap) (e : entry) : fmap := e :: m_del m (e_key e).

Inductive hop :=
| HInsert (k : K) (kd : option F) (d : D) (dd : option F)
| HRemove (k : K)          (* axl_hash_remove *)
| HDelete (k : K)          (* axl_hash_delete *)
| HDeferred (k : K)        (* axl_hash_remove_deferred + axl_hash_deferred_cleanup *)
| HGet (k : K) | HExists (k : K) | HItems.

Inductive hans := HUnit | HBool (b : bool) | HData (d : D) | HInt (z : Z).

Definition hspec (m : fmap) (o : hop) : fmap * hans :=
  let present k := match m_find m k with Some _ => true | None => false end in
  match o with
  | HInsert k kd d dd => (m_put m (Entry k kd d dd), HUnit)
  | HRemove k => (m_del m k, HBool (present k))
  | HDelete k => (m_del m k, HBool (present k))
  | HDeferred k => (m_del m k, HBool (present k))
  | HGet k => (m, HData (match m_find m k with Some e => e_data e | None => null end))
  | HExists k => (m, HBool (present k))
  | HItems => (m, HInt (Z.of_nat (length m)))
  end.
Fixpoint hspec_all (m : fmap) (ops : list hop) : fmap * list hans :=
  match ops with
  | [] => (m, [])
  | o :: r => let '(m1, a) := hspec m o in let '(m2, l) := hspec_all m1 r in (m2, a :: l)
  end.

(** destroy handlers attached by an insertion: (handler, argument) *)
Definition owes (e : entry) : list (F * (K + D)) :=
  (match e_kd e with Some f => [(f, inl (e_key e))] | None => [] end) ++
  (match e_dd e with Some f => [(f, inr (e_data e))] | None => [] end).
(** handlers attached over a history, one per insertion ... *)
Definition attached (ops : list hop) : list (F * (K + D)) :=
  flat_map (fun o => match o with HInsert k kd d dd => owes (Entry k kd d dd) | _ => [] end) ops.
(** ... and those cancelled because their entry was taken out with axl_hash_delete *)
Fixpoint cancelled (m : fmap) (ops : list hop) : list (F * (K + D)) :=
  match ops with
  | [] => []
  | o :: r =>
    (match o with
     | HDelete k => match m_find m k with Some e => owes e | None => [] end
     | _ => []
     end) ++ cancelled (fst (hspec m o)) r
  end.
(** no NULL key or value is inserted together with a handler for it *)
Definition no_null_owed (knull : K -> bool) (dnull : D -> bool) (o : hop) : Prop :=
  match o with
  | HInsert k kd d dd => (kd <> None -> knull k = false) /\ (dd <> None -> dnull d = false)
  | _ => True
  end.
End HashSpec.
Arguments Entry {K D F} e_key e_kd e_data e_dd.
Arguments e_key {K D F} e. Arguments e_data {K D F} e. Arguments e_kd {K D F} e. Arguments e_dd {K D F} e.
Arguments HInsert {K D F} k kd d dd. Arguments HRemove {K D F} k. Arguments HDelete {K D F} k.
Arguments HDeferred {K D F} k. Arguments HGet {K D F} k. Arguments HExists {K D F} k.
Arguments HItems {K D F}.
Arguments HUnit {D}. Arguments HBool {D} b. Arguments HData {D} d. Arguments HInt {D} z.

(** the pairs seen by a traversal that stops after the first pair satisfying [stop] *)
Fixpoint take_until {K D} (stop : K -> D -> bool) (l : list (K * D)) : list (K * D) :=
  match l with
  | [] => []
  | (k, d) :: r => if stop k d then [(k, d)] else (k, d) :: take_until stop r
  end.
Definition m_pairs {K D F} (m : list (entry K D F)) : list (K * D) :=
  map (fun e => (e_key e, e_data e)) m.

(** the entry a copy is expected to hold, given the key and value copy functions *)
Section CopySpec.
Context {K D F : Type}.
Variable kc : K -> option F -> D -> option F -> K.
Variable vc : K -> option F -> D -> option F -> D.
Definition cpe (e : entry K D F) : entry K D F :=
  Entry (kc (e_key e) (e_kd e) (e_data e) (e_dd e)) (e_kd e)
        (vc (e_key e) (e_kd e) (e_data e) (e_dd e)) (e_dd e).
End CopySpec.
(** ... and the destroy handlers axl_hash_copy_full installs *)
Definition set_handlers {K D F} (rep : option (option F * option F)) (e : entry K D F) : entry K D F :=
  match rep with
  | None => e
  | Some (dk, dd) => Entry (e_key e) dk (e_data e) dd
  end.

