(** What the string helpers should compute, on plain lists of bytes. *)
From Verif Require Import Prelude.

(** [b] holds the C string [s]: its bytes, a terminator, anything *)
Definition holds (b s : bytes) : Prop := nul_free s /\ exists rest, b = s ++ NUL :: rest.

Definition white (c : ascii) : bool :=
  existsb (Ascii.eqb c) (s2b " " ++ ["010"; "009"; "013"]%char).

(** [t] is [s] without the white space around it *)
Definition trimmed (s t : bytes) : Prop :=
  exists l r, s = l ++ t ++ r /\ forallb white l = true /\ forallb white r = true /\
    match t with [] => True | c :: _ => white c = false end /\
    match rev t with [] => True | c :: _ => white c = false end.

(** [p] is an initial part of [s]; if so, what follows it *)
Fixpoint after (p s : bytes) : option bytes :=
  match p, s with
  | [], _ => Some s
  | x :: p', y :: s' => if Ascii.eqb x y then after p' s' else None
  | _ :: _, [] => None
  end.

(** the first of the separators that starts [s], and what follows it *)
Fixpoint cut_at (seps : list bytes) (s : bytes) : option (bytes * bytes) :=
  match seps with
  | [] => None
  | [] :: seps' => cut_at seps' s
  | p :: seps' => match after p s with Some r => Some (p, r) | None => cut_at seps' s end
  end.

(** [pieces seps s l]: scanning [s] from left to right and cutting out every
    separator met gives the texts [l] *)
Inductive pieces (seps : list bytes) : bytes -> list bytes -> Prop :=
| pieces_end : pieces seps [] [[]]
| pieces_cut s p r l : cut_at seps s = Some (p, r) -> pieces seps r l -> pieces seps s ([] :: l)
| pieces_char c s x l : cut_at seps (c :: s) = None -> pieces seps s (x :: l) ->
    pieces seps (c :: s) ((c :: x) :: l).

(** joining *)
Fixpoint joined (sep : bytes) (l : list bytes) : bytes :=
  match l with
  | [] => []
  | [s] => s
  | s :: r => s ++ sep ++ joined sep r
  end.

(** [p] occurs in [s] *)
Definition occurs (p s : bytes) : Prop := exists a b, s = a ++ p ++ b.

(** ASCII case: upper case letters and their lower case counterparts *)
Definition same_letter (x y : ascii) : Prop :=
  x = y \/
  exists k, (k < 26)%N /\
    (x = ascii_of_N (65 + k) \/ x = ascii_of_N (97 + k)) /\
    (y = ascii_of_N (65 + k) \/ y = ascii_of_N (97 + k)).
