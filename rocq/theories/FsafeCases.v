(** Cases of C71: files with NUL bytes, cut off, and with text after the root. *)
From Verif Require Import Prelude StrModel XmlSpec TreeModel StreamModel ParseModel.

(** A NUL byte in a value, a tag cut off, and bytes that are not text. *)
Definition c71_odd : bytes := s2b "<a b='" ++ [NUL] ++ s2b "'><!-- " ++ [NUL] ++ s2b " --><c></a".
Example c71_odd_ends : doc_parse_file c71_odd = Ok None.
Proof. vm_compute. reflexivity. Qed.
(** its hypothesis: no standalone= at all *)
Example c71_odd_plain : forall a q v q' b, c71_odd = a ++ s2b "standalone=" ++ [q] ++ v ++ [q'] ++ b -> quote q -> quote q' -> (2 <= length v)%nat.
Proof.
  intros a q v q' b E _ _. exfalso.
  assert (H : existsb (Ascii.eqb "d") c71_odd = true).
  { rewrite E, existsb_app. apply orb_true_intro. right. reflexivity. }
  discriminate H.
Qed.
