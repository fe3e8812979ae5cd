(** UTF-8 and the single byte encodings. *)
From Coq Require Import NArith.
From Verif Require Import Prelude BabelPoints.
Open Scope N_scope.

(** Well-formed UTF-8 sequences, Unicode 3.9, Table 3-7 *)
Definition rng (lo hi : N) (c : ascii) : Prop := lo <= N_of_ascii c <= hi.
Inductive utf8_seq : bytes -> Prop :=
| u1 a : rng 0 127 a -> utf8_seq [a]
| u2 a b : rng 194 223 a -> rng 128 191 b -> utf8_seq [a; b]
| u3_e0 a b c : rng 224 224 a -> rng 160 191 b -> rng 128 191 c -> utf8_seq [a; b; c]
| u3 a b c : rng 225 236 a \/ rng 238 239 a -> rng 128 191 b -> rng 128 191 c -> utf8_seq [a; b; c]
| u3_ed a b c : rng 237 237 a -> rng 128 159 b -> rng 128 191 c -> utf8_seq [a; b; c]
| u4_f0 a b c d : rng 240 240 a -> rng 144 191 b -> rng 128 191 c -> rng 128 191 d -> utf8_seq [a; b; c; d]
| u4 a b c d : rng 241 243 a -> rng 128 191 b -> rng 128 191 c -> rng 128 191 d -> utf8_seq [a; b; c; d]
| u4_f4 a b c d : rng 244 244 a -> rng 128 143 b -> rng 128 191 c -> rng 128 191 d -> utf8_seq [a; b; c; d].
(** a text is well-formed when it is a row of well-formed sequences *)
Definition row (seq : bytes -> Prop) (l : bytes) : Prop := exists parts, Forall seq parts /\ concat parts = l.
Definition utf8 : bytes -> Prop := row utf8_seq.

(** The pattern of UTF-8 alone: a first byte that tells the length, and that many
    continuation bytes *)
Inductive shape : bytes -> Prop :=
| s1 a : rng 0 127 a -> shape [a]
| s2 a b : rng 192 223 a -> rng 128 191 b -> shape [a; b]
| s3 a b c : rng 224 239 a -> rng 128 191 b -> rng 128 191 c -> shape [a; b; c]
| s4 a b c d : rng 240 247 a -> rng 128 191 b -> rng 128 191 c -> rng 128 191 d -> shape [a; b; c; d].

(** Something is left, but none of the patterns begins it *)
Definition stuck (rest : bytes) : Prop := rest <> [] /\ forall s x, shape s -> rest <> s ++ x.

(** The UTF-8 form of a code point below 65536 *)
Definition encode (u : N) : list N :=
  if u <? 128 then [u]
  else if u <? 2048 then [192 + u / 64; 128 + u mod 64]
  else [224 + u / 4096; 128 + (u / 64) mod 64; 128 + u mod 64].
Definition point (points : list (option N)) (b : nat) : option N :=
  if Nat.ltb b 160 then Some (N.of_nat b) else nth (b - 160) points None.

(** A text written with a table *)
Definition written (t : list (nat * list N)) (c : ascii) : bytes := map ascii_of_N (snd (nth (N.to_nat (N_of_ascii c)) t (0%nat, []))).
Definition transcode (t : list (nat * list N)) (src : bytes) : bytes := concat (map (written t) src).
(** tables: 256 entries of 1 to 6 bytes *)
Definition full (t : list (nat * list N)) : Prop := length t = 256%nat /\ Forall (fun e => fst e = length (snd e) /\ (1 <= fst e <= 6)%nat) t.
(** The code points of a text: [None] when a byte is not part of the encoding *)
Fixpoint code_points (p : list (option N)) (src : bytes) : option (list N) :=
  match src with
  | [] => Some []
  | c :: src =>
    match point p (N.to_nat (N_of_ascii c)), code_points p src with
    | Some u, Some l => Some (u :: l)
    | _, _ => None
    end
  end.
(** The UTF-8 form of a text *)
Definition encode_all (l : list N) : bytes := map ascii_of_N (concat (map encode l)).
