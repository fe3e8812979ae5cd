(** What axl-knife has to do for the options it is given, written without the functions that
    read them.  The options are known by their positions in the table. *)
From Verif Require Import Prelude ExargModel ExargSpec.

(** an option with its long name, its letter, its value, and those it needs and forbids *)
Definition entry (n : string) (s : list bytes) (v : takes) (needs forbids : list nat) : decl :=
  mkDecl (s2b n :: s) v false needs forbids.

(** the table of the manual (the help of axl-knife) *)
Definition knife_table : list decl :=
  [ entry "version" [s2b "v"] Nothing [] [];
    entry "input" [s2b "i"] Text [] [];
    entry "output" [s2b "o"] Text [] [];
    entry "ifnewer" [s2b "n"] Nothing [2; 1] [];
    entry "htmlize" [s2b "e"] Nothing [1] [9];
    entry "htmlize-skip-first-enter-for-content" [s2b "r"] Nothing [] [];
    entry "pre-class" [s2b "p"] Text [4] [];
    entry "enable-log" [s2b "l"] Nothing [] [];
    entry "enable-log-color" [s2b "g"] Nothing [] [];
    entry "dtd-to-c" [] Nothing [1] [];
    entry "check-xml" [s2b "c"] Nothing [1] [] ].

Definition gives (g : list (nat * option bytes)) (i : nat) : Prop := In i (map fst g).

(** the output is as old as the input or newer *)
Definition current (w : world) (i o : bytes) : Prop :=
  w_exists w i = true /\ w_exists w o = true /\ (w_time w i <= w_time w o)%Z.

(** where the result goes *)
Inductive written (w : world) (g : list (nat * option bytes)) (k : option bytes -> event) : event -> Prop :=
| to_standard : ~ gives g 2 -> written w g k (k None)
| to_file o : In (2, Some o) g -> w_writes w o = true -> written w g k (k (Some o))
| to_nothing o : In (2, Some o) g -> w_writes w o = false -> written w g k (NoOutput o).

(** what one action does with the input *)
Inductive acts (w : world) (g : list (nat * option bytes)) (i : bytes) : list event -> Prop :=
| acts_dtd e : gives g 9 -> w_dtd w i = true -> written w g (Header i) e -> acts w g i [e]
| acts_no_dtd : gives g 9 -> w_dtd w i = false -> acts w g i [DtdFailed i]
| acts_no_doc : ~ gives g 9 -> w_doc w i = false -> acts w g i [DocFailed i]
| acts_html e : ~ gives g 9 -> w_doc w i = true -> gives g 4 -> written w g (Htmlized i) e ->
    acts w g i [DocLoaded i; e]
| acts_check : ~ gives g 9 -> w_doc w i = true -> ~ gives g 4 -> acts w g i [DocLoaded i; DocOk].

Inductive does (w : world) (g : list (nat * option bytes)) : list event -> Prop :=
| does_version : gives g 0 -> does w g [Version]
| does_nothing i o : ~ gives g 0 -> gives g 3 -> In (1, Some i) g -> In (2, Some o) g -> current w i o -> does w g []
| does_no_action : ~ gives g 0 ->
    (gives g 3 -> forall i o, In (1, Some i) g -> In (2, Some o) g -> ~ current w i o) ->
    ~ gives g 4 -> ~ gives g 9 -> ~ gives g 10 -> does w g [NoAction]
| does_action i evs : ~ gives g 0 ->
    (gives g 3 -> forall o, In (2, Some o) g -> ~ current w i o) ->
    gives g 4 \/ gives g 9 \/ gives g 10 -> In (1, Some i) g -> acts w g i evs -> does w g evs.
