(** Driver: decoding a text with a row of output buffers. *)
From Coq Require Import NArith.
From Verif Require Import Prelude Arr BabelModel BabelTables BabelPoints.
Open Scope list_scope.

(** axl_stream_decode called once for each buffer, with the size of the buffer as output
    size; what each call leaves in its buffer is collected *)
Fixpoint decode_all (t : table) (k : decoder) (outs : list bytes) : res (decoder * list bytes) :=
  match outs with
  | [] => Ok (k, [])
  | out :: outs =>
    r <- stream_decode t k out (length out) ;;
    match r with
    | None => UB
    | Some (k, out, n) => ' (k, l) <- decode_all t k outs ;; Ok (k, firstn n out :: l)
    end
  end.
(** what is still to be decoded *)
Definition pending (k : decoder) : bytes := firstn (k_last k) (k_temp k).
(** The tables of babel/ with the code points of the encodings *)
Definition shipped : list (table * list (option N)) :=
  [(table_1, points_1); (table_2, points_2); (table_3, points_3); (table_4, points_4); (table_5, points_5);
   (table_6, points_6); (table_7, points_7); (table_8, points_8); (table_9, points_9); (table_15, points_15)].
