(** Parameter entities and references to them in the text of a DTD (XML 1.0, sections
    4.1 and 4.2).  Independent of the loader. *)
From Verif Require Import Prelude StrSpec XmlSpec DtdModel DtdDocModel LoadSpec.
Open Scope nat_scope.
Open Scope list_scope.

(** [text] declares somewhere the parameter entity [n] with the value [v] *)
Definition declares_parameter (text n v : bytes) : Prop :=
  exists a w w0 w1 q b, text = a ++ str "<!ENTITY" ++ w ++ str "%" ++ w0 ++ n ++ w1 ++ [q] ++ v ++ [q] ++ b /\
    blank w /\ blank w0 /\ forallb (fun c => negb (white c)) n = true /\ blank w1 /\ quote q /\ XmlSpec.has q v = false.
(** a value refers to [m]: %m; *)
Definition refers (v m : bytes) : Prop := XmlSpec.has ";" m = false /\ exists a b, v = a ++ str "%" ++ m ++ str ";" ++ b.
(** no parameter entity refers to itself, neither in its value nor through others *)
Definition no_cycle (text : bytes) : Prop :=
  exists rank : bytes -> nat, forall n v m, declares_parameter text n v -> refers v m -> rank m < rank n.
(** the values hold no declarations *)
Definition no_declaration_inside (text : bytes) : Prop := forall n v, declares_parameter text n v -> XmlSpec.has "<" v = false.

(** the value of the parameter entity [x] after the declarations [ds] is the one of the
    first declaration of [x] *)
Definition parameter (ds : list decl) (x v : bytes) : Prop :=
  exists ds1 ds2, ds = ds1 ++ DEntity (Entity x EParameter (Some v)) :: ds2 /\ forall o, ~ In (DEntity (Entity x EParameter o)) ds1.
(** a value that starts at once, and not with a reference *)
Definition starts_at_once (v : bytes) : Prop := exists c r, v = c :: r /\ white c = false /\ c <> "%"%char.
