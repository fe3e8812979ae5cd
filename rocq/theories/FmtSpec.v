(** What a printed text is. *)
From Verif Require Import Prelude FmtModel.
Open Scope list_scope.

(** [prints f args out]: the format [f], read from left to right, with the arguments [args]
    gives [out] *)
Inductive prints : bytes -> list arg -> bytes -> Prop :=
| prints_end args : prints [] args []
| prints_char c f args out : c <> "%"%char -> prints f args out -> prints (c :: f) args (c :: out)
| prints_percent f args out : prints f args out -> prints ("%"%char :: "%"%char :: f) args ("%"%char :: out)
| prints_string s f args out : prints f args out -> prints ("%"%char :: "s"%char :: f) (AStr s :: args) (s ++ out)
| prints_number n f args out : prints f args out -> prints ("%"%char :: "d"%char :: f) (AInt n :: args) (dec n ++ out)
| prints_letter a f args out : prints f args out -> prints ("%"%char :: "c"%char :: f) (AChr a :: args) (a :: out).
(** a block of memory that starts with the text [s] and its end *)
Definition holds (b s : bytes) : Prop := exists r, b = s ++ NUL :: r.
