(** What a C header that holds a text means to a C compiler, and what text the header made
    from a document type definition should hold.  Independent of the tool. *)
From Verif Require Import Prelude StrSpec XmlSpec DtdModel DtdDocModel LoadSpec.
Open Scope nat_scope.
Open Scope list_scope.

(** ** C source (ISO C without trigraphs) *)
Definition nl : ascii := "010"%char.
Definition cr : ascii := "013"%char.
Definition backslash : ascii := "\"%char.
(** translation phase 2: a backslash at the end of a line joins it with the next one *)
Fixpoint splice (s : bytes) : bytes :=
  match s with
  | [] => []
  | c :: r =>
    match r with
    | [] => [c]
    | d :: r' => if Ascii.eqb c backslash && Ascii.eqb d nl then splice r' else c :: splice r
    end
  end.
(** string literals; of the escapes those of the line end, the tabulator, the quotes and the
    backslash *)
Inductive c_chars : bytes -> bytes -> Prop :=
| cc_nil : c_chars [] []
| cc_plain c s v : ~ In c ["034"%char; backslash; nl; cr; NUL] -> c_chars s v -> c_chars (c :: s) (c :: v)
| cc_line s v : c_chars s v -> c_chars (backslash :: "n"%char :: s) (nl :: v)
| cc_tab s v : c_chars s v -> c_chars (backslash :: "t"%char :: s) ("009"%char :: v)
| cc_self c s v : In c ["034"%char; "'"%char; backslash] -> c_chars s v -> c_chars (backslash :: c :: s) (c :: v).
Definition c_literal (t v : bytes) : Prop := exists b, t = ["034"%char] ++ b ++ ["034"%char] /\ c_chars b v.
Definition upper_letter (c : ascii) : bool := let n := nat_of_ascii c in (65 <=? n) && (n <=? 90).
Definition lower_letter (c : ascii) : bool := let n := nat_of_ascii c in (97 <=? n) && (n <=? 122).
Definition digit (c : ascii) : bool := let n := nat_of_ascii c in (48 <=? n) && (n <=? 57).
Definition id_start (c : ascii) : bool := upper_letter c || lower_letter c || Ascii.eqb c "_".
Definition identifier (s : bytes) : Prop :=
  match s with [] => False | c :: r => id_start c = true /\ forallb (fun d => id_start d || digit d) r = true end.
(** a header with a comment, a guard, and one macro that stands for a string *)
Definition defines (text name value : bytes) : Prop := exists comment guard lit,
  splice text = str "/*" ++ comment ++ str "*/" ++ [nl] ++
    str "#ifndef " ++ guard ++ [nl] ++ str "#define " ++ guard ++ [nl] ++
    str "#define " ++ name ++ str " " ++ lit ++ [nl] ++ str "#endif" ++ [nl] /\
  ~ occurs (str "*/") comment /\ identifier guard /\ identifier name /\ guard <> name /\ c_literal lit value.

(** ** the text it should hold *)
(** the same text on one line: a line end becomes blanks, a tabulator a blank, a double
    quote a single one *)
Definition flat_char (c : ascii) : ascii :=
  if Ascii.eqb c "009" then " "%char else if Ascii.eqb c "034" then "'"%char else c.
Inductive flat : bytes -> bytes -> Prop :=
| flat_nil : flat [] []
| flat_one c s t : c <> nl -> flat s t -> flat (c :: s) (flat_char c :: t)
| flat_line w s t : w <> [] -> Forall (eq " "%char) w -> flat s t -> flat (nl :: s) (w ++ t).
(** values that do not change *)
Definition plain_value (v : bytes) : Prop := ~ In nl v /\ ~ In "009"%char v /\ ~ In "034"%char v /\ ~ In "'"%char v.
Definition decl_plain (d : decl) : Prop :=
  match d with
  | DElement _ _ => True
  | DAttlist _ l => forall a v, In a l -> ad_value a = Some v -> plain_value v
  | DEntity e => forall v, en_content e = Some v -> plain_value v
  end.
(** the last part of a path, in capitals, with "_" for "." and "-" *)
Definition last_part (path name : bytes) : Prop := ~ In "/"%char name /\ (path = name \/ exists d, path = d ++ "/"%char :: name).
Definition capital (c d : ascii) : Prop :=
  if lower_letter c then nat_of_ascii d + 32 = nat_of_ascii c else if Ascii.eqb c "." || Ascii.eqb c "-" then d = "_"%char else d = c.
Definition macro_name (path name : bytes) : Prop := exists b, last_part path b /\ Forall2 capital b name.
(** characters that C keeps as they are *)
Definition kept_char (c : ascii) : Prop := c <> backslash /\ c <> cr /\ c <> NUL.
(** a text that fits in the buffer of the reader (8192 bytes) or whose last line is ended *)
Definition fits (s : bytes) : Prop := (Z.of_nat (length s) <= 8192)%Z \/ exists a, s = a ++ [nl].
