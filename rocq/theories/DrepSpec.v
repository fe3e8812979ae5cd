(** What the DTD loader tells of an error, and what a caller does with what it received (C61). *)
From Verif Require Import Prelude StrModel DtdModel DtdDocModel LoadModel RepModel RepSpec DrepModel.
Open Scope Z_scope.

(** axl_dtd_free on the DTD, or axl_error_free on the error, if there is one *)
Definition settle_dtd {A} (m : book) (o : option (mdtd * A)) : res book :=
  match o with
  | Some (d, _) => dtd_free m d
  | None => match reports m with [] => Ok m | r :: _ => error_free m r end
  end.

(** the errors after which the element being read is left behind: those about its content
    and the one about an element declared twice *)
Definition element_errors : list bytes := [t_open; t_particle; t_nesting; t_separator; t_choice; t_sequence; t_twice].
