(** What escaping should achieve, on plain lists of bytes. *)
From Verif Require Import Prelude StrSpec.

(** the five predefined entities *)
Definition entities : list bytes := map s2b ["&apos;"; "&quot;"; "&amp;"; "&gt;"; "&lt;"]%string.

(** [e] contains neither < nor > nor quotes, and an & only where one of the five
    entities starts *)
Definition no_markup (e : bytes) : Prop :=
  (forall c, In c e -> ~ In c (s2b "<>'" ++ ["034"%char])) /\
  (forall a b, e = a ++ "&"%char :: b -> exists ent r, In ent entities /\ "&"%char :: b = ent ++ r).

Definition cdata_end : bytes := s2b "]]>".

(** the end of a CDATA section does not lie across position [n] of [s] *)
Definition not_across (n : nat) (s : bytes) : Prop :=
  forall a b, s = a ++ cdata_end ++ b -> n <= length a \/ length a + length cdata_end <= n.
