(** Model of src/axl_factory.c: the item factory and the string factory.

    Memory blocks are named by their allocation number; [blocks] gives the size in
    bytes of every block, oldest first.  A pointer is (block, byte offset).
    Simplifications: allocation never fails; [int] is unbounded. *)
From Verif Require Import Prelude Arr.
Open Scope Z_scope.

Definition ptr := (nat * Z)%type.

(** struct _axlFactory, axl_factory.c:50-60; the current block is the last of
    [blocks]; [spares] is the array, [None] for a slot never written *)
Record factory := Factory {
  f_count : Z; f_step : Z; f_type : Z;
  spare_max : Z; spare_next : Z; spares : list (option ptr);
  blocks : list Z }.

(** axl_factory_create, axl_factory.c:73-87 (division by zero is UB) *)
Definition factory_create (ts : Z) : res factory :=
  if Z.eqb ts 0 then UB
  else let step := 256 / ts in Ok (Factory 0 step ts 0 0 [] [step * ts]).

(** axl_factory.c:114-119 *)
Definition next_step (step ts : Z) : Z :=
  if Z.eqb step (256 / ts) then 512 / ts
  else if Z.eqb step (512 / ts) then 1024 / ts
  else if Z.eqb step (1024 / ts) then 2048 / ts
  else step.

(** axl_factory_get, axl_factory.c:97-131 *)
Definition factory_get (f : factory) : res (factory * ptr) :=
  if (0 <? spare_max f) && (0 <=? spare_next f) then
    o <- aget (spares f) (Z.to_nat (spare_next f)) ;;
    p <- of_option o ;;
    Ok (Factory (f_count f) (f_step f) (f_type f) (spare_max f) (spare_next f - 1) (spares f) (blocks f), p)
  else
    let count := f_count f + 1 in
    if f_step f <? count then
      let step := next_step (f_step f) (f_type f) in
      Ok (Factory 1 step (f_type f) (spare_max f) (spare_next f) (spares f) (blocks f ++ [step * f_type f]),
          (length (blocks f), 0))
    else
      Ok (Factory count (f_step f) (f_type f) (spare_max f) (spare_next f) (spares f) (blocks f),
          ((length (blocks f) - 1)%nat, (count - 1) * f_type f)).

(** axl_factory_release_spare, axl_factory.c:133-166 *)
Definition factory_release (f : factory) (node : ptr) : res factory :=
  let '(mx, nx, sp) :=
    if Z.eqb (spare_max f) 0 then (9, 0, repeat None 10)
    else if spare_next f <? spare_max f then
      (spare_max f, (if Z.eqb (spare_next f) (-1) then 0 else spare_next f + 1), spares f)
    else
      (spare_max f + 10 - 1, spare_next f + 1,
       (* realloc to spare_max + 10 slots *)
       spares f ++ repeat None (Z.to_nat (spare_max f + 10) - length (spares f))) in
  sp <- aset sp (Z.to_nat nx) (Some node) ;;
  Ok (Factory (f_count f) (f_step f) (f_type f) mx nx sp (blocks f)).

(** struct _axlStrFactory, axl_factory.c:243-258 *)
Record sfactory := SFactory { s_index : Z; s_step : Z; s_size : Z; s_blocks : list Z }.

(** axl_string_factory_create, axl_factory.c:267-280 *)
Definition sfactory_create : sfactory := SFactory 0 1024 1024 [1024].

(** result [ size ] = 0: UB outside the block *)
Definition write_in (blks : list Z) (b : nat) (off : Z) : res unit :=
  len <- aget blks b ;;
  if (0 <=? off) && (off <? len) then Ok tt else UB.

(** axl_string_factory_alloc, axl_factory.c:293-331 *)
Definition sfactory_alloc (f : sfactory) (size : Z) : res (sfactory * ptr) :=
  let f :=
    if s_size f - s_index f - 1 <? size then
      if s_size f <? size then
        SFactory 0 (s_step f) (size + 1) (s_blocks f ++ [size + 1])
      else
        let sz := if s_step f <? size then size else s_step f in
        SFactory 0 (s_step f) sz (s_blocks f ++ [sz + 1])
    else f in
  let b := (length (s_blocks f) - 1)%nat in
  _ <- write_in (s_blocks f) b (s_index f + size) ;;
  Ok (SFactory (s_index f + size + 1) (s_step f) (s_size f) (s_blocks f), (b, s_index f)).
