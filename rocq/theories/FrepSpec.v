(** Where an error in a file is (C60). *)
From Verif Require Import Prelude StrModel TreeModel RepModel RepSpec.
Open Scope Z_scope.

(** an error names a place of a part of the file: the part begins at byte [off] and has [size]
    bytes, the place is byte [i] of it, or up to ten bytes behind it; the error has the beginning
    of what the file has around the place, and the beginning of what follows it there *)
Definition place_within (text : bytes) (r : report) : Prop :=
  exists off size i near follow, r_where r = Some (size, i, near, follow) /\
    0 <= off /\ 0 <= size /\ off + size <= Z.of_nat (length text) /\ 0 <= i <= size + 10 /\
    (exists a b, 0 <= a <= i /\ a <= b <= size /\ (a = 0 \/ 10 <= i - a) /\ (b = size \/ 10 <= b - i) /\ begins text (off + a) (off + b) near) /\
    begins text (off + i) (off + Z.min size (i + 10)) follow.
