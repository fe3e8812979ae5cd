(** The vocabulary that relates the options of the model with what a command line says. *)
From Verif Require Import Prelude ExargModel ExargSpec.

(** exarg.c:203-253: what an option is, without what the command line has given it *)
Definition decl_of (o : opt) : decl :=
  mkDecl (o_name o :: match o_short o with Some s => [s] | None => [] end)
    (match o_kind o with ANone => Nothing | AInt => Number | AString => Text end)
    (negb (o_optional o)) (o_depends o) (o_excludes o).

Definition decls (st : exarg) : list decl := map decl_of (x_opts st).

(** exarg.c:86-98 *)
Definition style_of (m : mode) : style :=
  match m with MNone => Any | MUnix => Dashes | MWindows => Slashes end.
