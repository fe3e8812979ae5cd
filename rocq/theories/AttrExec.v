(** Driving the attribute functions. *)
From Verif Require Import Prelude AttrModel AttrSpec.
Open Scope Z_scope.

Definition aexec (n : attrs) (o : aop) : res (attrs * aans bytes) :=
  match o with
  | ASet k v => n <- set_attribute n k v ;; Ok (n, AUnit)
  | ARemove k => n <- remove_attribute n k ;; Ok (n, AUnit)
  | AGet k => v <- get_attribute_value n k ;; Ok (n, AVal v)
  | AHas k => b <- has_attribute n k ;; Ok (n, ABool b)
  | ANum => z <- num_attributes n ;; Ok (n, AInt z)
  | AHasAny => Ok (n, ABool (has_attributes n))
  end.
Fixpoint aexec_all (n : attrs) (ops : list aop) : res (attrs * list (aans bytes)) :=
  match ops with
  | [] => Ok (n, [])
  | o :: r => '(n, a) <- aexec n o ;; '(n, l) <- aexec_all n r ;; Ok (n, a :: l)
  end.

(** for (c = cursor_new; has_item; next) get_key, get_value *)
Fixpoint attr_walk (fuel : nat) (n : attrs) (c : acursor) : res (list (bytes * option bytes)) :=
  match fuel with
  | O => NoFuel
  | S fuel' =>
    if attr_cursor_has_item n c then
      o <- attr_cursor_get n c ;;
      p <- of_option o ;;
      c <- attr_cursor_next n c ;;
      r <- attr_walk fuel' n c ;;
      Ok (p :: r)
    else Ok []
  end.
