(** What a command line says, written without the functions that read it. *)
From Verif Require Import Prelude.

(** what follows the name of an option *)
Inductive takes := Nothing | Number | Text.

(** an option as it was declared: its names, what value it takes, if it has to be given, and
    the positions of those it needs and those it does not allow *)
Record decl := mkDecl {
  d_names : list bytes; d_value : takes; d_needed : bool; d_needs : list nat; d_forbids : list nat }.

(** the convention that the arguments follow, once the first option has fixed it *)
Inductive style := Any | Dashes | Slashes.

(** the argument is an option whose name is [w] *)
Inductive option_in : style -> bytes -> bytes -> style -> Prop :=
| two_dashes s w : s <> Slashes -> option_in s ("-"%char :: "-"%char :: w) w Dashes
| one_dash s c : s <> Slashes -> c <> "-"%char -> option_in s ["-"%char; c] [c] Dashes
| slash s w : s <> Dashes -> 2 <= length w -> ~ In "/"%char w -> option_in s ("/"%char :: w) w Slashes.

Definition plain_in (s : style) (a : bytes) : Prop := forall w s', ~ option_in s a w s'.

(** the names with which the user asks for help *)
Definition asks (w : bytes) : Prop :=
  exists p t, In p [s2b "help"; s2b "?"; s2b "usage"] /\ w = p ++ t.

(** the name is that of the option at the position: the first declared with it *)
Definition means (ds : list decl) (w : bytes) (i : nat) (d : decl) : Prop :=
  nth_error ds i = Some d /\ In w (d_names d) /\
  forall j e, j < i -> nth_error ds j = Some e -> ~ In w (d_names e).

(** [says ds s args given free]: the arguments give these options, with their values, and
    these other arguments *)
Inductive says (ds : list decl) : style -> list bytes -> list (nat * option bytes) -> list bytes -> Prop :=
| says_end s : says ds s [] [] []
| says_free s a args g f : plain_in s a -> says ds s args g f -> says ds s (a :: args) g (a :: f)
| says_flag s s' a w i d args g f :
    option_in s a w s' -> ~ asks w -> means ds w i d -> d_value d = Nothing ->
    says ds s' args g f -> says ds s (a :: args) ((i, None) :: g) f
| says_value s s' a w i d v args g f :
    option_in s a w s' -> ~ asks w -> means ds w i d -> d_value d <> Nothing -> plain_in s' v ->
    says ds s' args g f -> says ds s (a :: v :: args) ((i, Some v) :: g) f.

(** every option that has to be given is *)
Definition complete (ds : list decl) (g : list (nat * option bytes)) : Prop :=
  forall i d, nth_error ds i = Some d -> d_needed d = true -> In i (map fst g).
(** every option that one given needs is given *)
Definition supported (ds : list decl) (g : list (nat * option bytes)) : Prop :=
  forall i d j, nth_error ds i = Some d -> In i (map fst g) -> In j (d_needs d) -> In j (map fst g).
(** no option that one given forbids is given *)
Definition compatible (ds : list decl) (g : list (nat * option bytes)) : Prop :=
  forall i d j, nth_error ds i = Some d -> In i (map fst g) -> In j (d_forbids d) -> ~ In j (map fst g).

(** the text is the number in base ten *)
Inductive numeral : bytes -> Z -> Prop :=
| numeral_one k : k < 10 -> numeral [ascii_of_nat (48 + k)] (Z.of_nat k)
| numeral_more t n k : numeral t n -> k < 10 -> numeral (t ++ [ascii_of_nat (48 + k)]) (10 * n + Z.of_nat k).

(** lines with a space between each two *)
Fixpoint spaced (l : list bytes) : bytes :=
  match l with
  | [] => []
  | [x] => x
  | x :: r => x ++ " "%char :: spaced r
  end.
