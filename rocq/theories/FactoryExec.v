From Verif Require Import Prelude Arr FactoryModel FactorySpec.
Open Scope Z_scope.

(** a client keeping the list of the items it holds, most recent first *)
Fixpoint fexec (f : factory) (held : list ptr) (ops : list fop) : res (factory * list ptr) :=
  match ops with
  | [] => Ok (f, held)
  | FGet :: r => '(f, p) <- factory_get f ;; fexec f (p :: held) r
  | FRelease n :: r =>
    match nth_error held n with
    | None => fexec f held r
    | Some p => f <- factory_release f p ;; fexec f (drop_nth n held) r
    end
  end.
Definition item_region (f : factory) (p : ptr) : region := (fst p, snd p, f_type f).

(** a client of the string factory: each request keeps size+1 bytes *)
Fixpoint sexec (f : sfactory) (held : list region) (sizes : list Z) : res (sfactory * list region) :=
  match sizes with
  | [] => Ok (f, held)
  | n :: r => '(f, p) <- sfactory_alloc f n ;; sexec f ((fst p, snd p, n + 1) :: held) r
  end.
