(** Files that are converted while they are read (C64). *)
From Coq Require Import ZArith.
From Verif Require Import Prelude StreamModel BabelModel BdocModel.
Open Scope nat_scope.
Open Scope list_scope.

(** The bytes of the stream that can be looked at now *)
Definition window (st : stream) : bytes :=
  firstn (Z.to_nat (s_size st - s_idx st)) (skipn (Z.to_nat (s_idx st)) (s_buf st)).
(** What a reader does: take the first bytes of the window, or ask for more *)
Inductive act := Take (n : nat) | More.
(** [out]: the bytes taken *)
Fixpoint run (acts : list act) (st : stream) : res (bytes * stream) :=
  match acts with
  | [] => Ok ([], st)
  | Take n :: r => '(out, st') <- run r (stream_move st (s_idx st + Z.of_nat n)) ;; Ok (firstn n (window st) ++ out, st')
  | More :: r => '(st, _) <- prebuffer st ;; run r st
  end.
(** the file has been closed *)
Definition closed (st : stream) : Prop :=
  match s_kind st with FD None | FDX None _ => True | _ => False end.
(** Each thing done is allowed in the state in which it is done *)
Fixpoint always (allowed : stream -> act -> Prop) (acts : list act) (st : stream) : Prop :=
  match acts with
  | [] => True
  | Take n :: r => allowed st (Take n) /\ always allowed r (stream_move st (s_idx st + Z.of_nat n))
  | More :: r => allowed st More /\ forall st' b, prebuffer st = Ok (st', b) -> always allowed r st'
  end.
(** No more is taken than the window has *)
Definition inside (st : stream) (a : act) : Prop :=
  match a with Take n => n <= length (window st) | More => True end.
(** Also, one byte is left in the window *)
Definition keeping (st : stream) (a : act) : Prop :=
  match a with Take n => n < length (window st) | More => True end.
(** The stream wants to grow its buffer (stream->needs_expansion) *)
Definition flagged (st : stream) : Prop :=
  match s_kind st with FDX _ (HDecode _ _ true _) => True | _ => False end.
(** No more is taken than the window has, and more is not asked for when the window is empty
    while the stream wants to grow its buffer *)
Definition careful (st : stream) (a : act) : Prop :=
  match a with Take n => n <= length (window st) | More => flagged st -> window st <> [] end.
(** A reader that takes all there is, asks for more, and so on *)
Fixpoint drain (m : nat) (st : stream) : res (bytes * stream) :=
  match m with
  | O => Ok ([], st)
  | S m =>
    '(st1, _) <- prebuffer (stream_move st (s_size st)) ;;
    '(out, st') <- drain m st1 ;;
    Ok (window st ++ out, st')
  end.
(** A file with this content has been opened, [n] bytes of it have been taken, and then
    the conversion with the table [t] has been set up.  [garbage] is what is in the
    uninitialised variable op_result of axl_stream_prebuffer, at each call. *)
Definition converting (t : table) (garbage : Z) (content : bytes) (n : nat) (st : stream) : Prop :=
  exists st0, stream_file content = Ok st0 /\ (Z.of_nat n <= s_size st0)%Z /\
    setup_decode garbage (stream_move st0 (Z.of_nat n)) t = Ok (Some st).
