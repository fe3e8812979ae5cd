(** A concrete printed text. *)
From Verif Require Import Prelude StrModel XmlSpec FmtModel FmtSpec.
Open Scope Z_scope.

Definition sample_format : bytes := str "100%% of %s: %d%c".
Definition sample_args : list arg := [AStr (str "it"); AInt (-42); AChr "!"%char].
Definition sample_out : bytes := str "100% of it: -42!".
Lemma sample_prints : prints sample_format sample_args sample_out.
Proof.
  unfold sample_format. repeat (apply prints_char; [discriminate|]). apply prints_percent. repeat (apply prints_char; [discriminate|]).
  apply (prints_string (str "it")). repeat (apply prints_char; [discriminate|]). apply (prints_number (-42)). apply prints_letter. constructor.
Qed.
