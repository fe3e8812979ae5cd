(** What a user expects of the attributes of an element: a map from names to
    values in which the first value set is kept. *)
From Verif Require Import Prelude StrModel StrSpec EscModel EscSpec.

(** no character that is escaped *)
Definition clean (s : bytes) : Prop := forall c, In c s -> ~ In c (s2b "<>&'" ++ ["034"%char]).

Definition amap (V : Type) := list (bytes * V).
Definition a_find {V} (m : amap V) (k : bytes) : option V :=
  option_map snd (find (fun p => bytes_eqb (fst p) k) m).
Definition a_add {V} (m : amap V) (k : bytes) (v : V) : amap V :=
  match a_find m k with Some _ => m | None => (k, v) :: m end.
Definition a_del {V} (m : amap V) (k : bytes) : amap V := filter (fun p => negb (bytes_eqb (fst p) k)) m.

Inductive aop :=
| ASet (name value : bytes) | ARemove (name : bytes)
| AGet (name : bytes) | AHas (name : bytes) | ANum | AHasAny.
Inductive aans (V : Type) := AUnit | AVal (v : option V) | ABool (b : bool) | AInt (z : Z).
Arguments AUnit {V}. Arguments AVal {V} v. Arguments ABool {V} b. Arguments AInt {V} z.

Definition aspec (m : amap bytes) (o : aop) : amap bytes * aans bytes :=
  match o with
  | ASet k v => (a_add m k v, AUnit)
  | ARemove k => (a_del m k, AUnit)
  | AGet k => (m, AVal (a_find m k))
  | AHas k => (m, ABool (match a_find m k with Some _ => true | None => false end))
  | ANum => (m, AInt (Z.of_nat (length m)))
  | AHasAny => (m, ABool (match m with [] => false | _ => true end))
  end.
Fixpoint aspec_all (m : amap bytes) (ops : list aop) : list (aans bytes) :=
  match ops with
  | [] => []
  | o :: r => snd (aspec m o) :: aspec_all (fst (aspec m o)) r
  end.

(** [e] is a stored form of the value [v]: without markup, translated back to [v] by
    axl_node_get_attribute_value_trans, and [v] itself when nothing has to be escaped *)
Definition stored (v e : bytes) : Prop :=
  no_markup e /\ nul_free e /\ (exists b, attr_value_trans (cs e) = Ok b /\ holds b v) /\ (clean v -> e = v).

Definition answers (a : aans bytes) (b : aans bytes) : Prop :=
  match a, b with
  | AUnit, AUnit => True
  | AVal None, AVal None => True
  | AVal (Some v), AVal (Some e) => stored v e
  | ABool x, ABool y => x = y
  | AInt x, AInt y => x = y
  | _, _ => False
  end.

(** a name: not empty, without NUL and without characters that are escaped *)
Definition good_name (k : bytes) : Prop := k <> [] /\ nul_free k /\ clean k.
Definition good_op (o : aop) : Prop :=
  match o with
  | ASet k v => good_name k /\ nul_free v
  | ARemove k | AGet k | AHas k => good_name k
  | _ => True
  end.
Definition clean_op (o : aop) : Prop := match o with ASet _ v => clean v | _ => True end.

(** some removal takes the number of attributes from eleven to ten *)
Fixpoint shrinks (m : amap bytes) (ops : list aop) : Prop :=
  match ops with
  | [] => False
  | o :: r =>
    match o with ARemove k => a_find m k <> None /\ length m = 11%nat | _ => False end \/
    shrinks (fst (aspec m o)) r
  end.
