(** What a file declares is what is loaded. *)
From Verif Require Import Prelude StrSpec StreamModel XmlSpec DtdModel DtdSpec DtdDocModel DtdDocSpec LoadModel LoadSpec LoadProofs8 LoadProofs9 LoadProofs10 FdtdProofs3.
Open Scope nat_scope.
Open Scope list_scope.

Theorem loads_file text ds : dtd_text text ds -> declared_well ds -> groups_shown ds ->
  (exists body w, text = body ++ [w] /\ In w [" "; "009"; "010"; "013"]%char) -> (forall u v, text <> u ++ str "<!--" ++ v) -> ~ In "%"%char text ->
  exists n, forall fuel, n <= fuel -> exists d ents, dtd_parse_file fuel text = Ok (Some (d, ents)) /\ loaded ds d ents.
Proof.
  intros T W G E C P. destruct (load_ok text ds T W G) as (n & H). exists n. intros fuel L. destruct (H fuel L) as (d & ents & Ep & Ld).
  exists d, ents. split; [apply same_file; assumption|exact Ld].
Qed.
