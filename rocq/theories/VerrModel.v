(** What axl_dtd_validate (src/axl_dtd.c) reports, and the memory it takes: the functions of
    DtdModel and DtdDocModel with their parameter [error].

    Simplifications (besides those of DtdModel and DtdDocModel): the text of a message is the
    format together with its arguments, one constructor for each place that reports; an
    axlError is one block with its text; the stack of nodes, the table of identifiers and the
    list of references are one block each (what is inside them: C04, C07, C10). *)
From Verif Require Import Prelude HashModel DtdModel DtdDocModel.
Open Scope nat_scope.
Open Scope list_scope.

(** ** What can be reported
    [option bytes] is the argument of a "%s": [None] is NULL. *)
Inductive verr :=
| EMoreNodes (parent : bytes)                              (* axl_dtd.c:2131-2133 *)
| EDifferent (node value : bytes) (pos item : nat)         (* axl_dtd.c:2197-2201 *)
| EMoreChilds                                              (* axl_dtd.c:2284 *)
| EChoiceEnd                                               (* axl_dtd.c:2328 *)
| EChoiceNone                                              (* axl_dtd.c:2405 *)
| EPartOpt                                                 (* axl_dtd.c:2494 *)
| EPartMany                                                (* axl_dtd.c:2534 *)
| EPartPlus                                                (* axl_dtd.c:2579 *)
| ETimes                                                   (* axl_dtd.c:2617 *)
| EChoiceRest                                              (* axl_dtd.c:2634 *)
| EFewer (parent : bytes) (found minimum : nat)            (* axl_dtd.c:2665-2668 *)
| ENotCovered (pos minimum childs : nat) (parent : bytes)  (* axl_dtd.c:2684-2687 *)
| EHasChilds                                               (* axl_dtd.c:2710 *)
| ENotEmpty (node : bytes)                                 (* axl_dtd.c:2734-2736 *)
| EEmptyChilds (node : bytes)                              (* axl_dtd.c:2744-2746 *)
| EUnknownAttr (key node : bytes)                          (* axl_dtd.c:2768-2769 *)
| ENotInEnum (key value node : bytes)                      (* axl_dtd.c:2789-2790 *)
| EFixed (key node : bytes)                                (* axl_dtd.c:2870-2871 *)
| ERequired (key node : bytes)                             (* axl_dtd.c:2873-2874 *)
| EIdTwice (key node : bytes)                              (* axl_dtd.c:2898-2899 *)
| ERef (reference : bytes)                                 (* axl_dtd.c:2983-2984 *)
| ERoot (node : bytes) (element : option bytes)            (* axl_dtd.c:3048-3050 *)
| ENoElement (node : bytes)                                (* axl_dtd.c:3061-3062 *)
| EUndeclared (node : bytes).                              (* axl_dtd.c:3236-3237 *)

(** ** The memory
    [v_wanted]: the caller has given a place for the error, [v_cell] is what is there; [v_errs]
    are the errors that have been made and not released, [v_mem] the other blocks. *)
Inductive block := BStack | BIds | BRefs | BMsg.
Definition block_eqb (a b : block) : bool := match a, b with BStack, BStack => true | BIds, BIds => true | BRefs, BRefs => true | BMsg, BMsg => true | _, _ => false end.
Record vst := Vst { v_wanted : bool; v_cell : option verr; v_errs : list verr; v_mem : list block }.
(** axl_error_new, axl_error.c:139-177, and axl_error_report, 195-231: what was there is not
    released *)
Definition error_new (st : vst) (e : verr) : vst :=
  if v_wanted st then Vst true (Some e) (e :: v_errs st) (v_mem st) else st.
(** axl_new, axl_stack_new, axl_hash_new, axl_list_new, axl_strdup_printf *)
Definition alloc (st : vst) (b : block) : vst := Vst (v_wanted st) (v_cell st) (v_errs st) (b :: v_mem st).
(** axl_free, axl_stack_free, axl_hash_free, axl_list_free of a block that is there *)
Fixpoint take_block (b : block) (l : list block) : option (list block) :=
  match l with
  | [] => None
  | x :: l => if block_eqb b x then Some l else option_map (cons x) (take_block b l)
  end.
Definition release (st : vst) (b : block) : res vst := l <- of_option (take_block b (v_mem st)) ;; Ok (Vst (v_wanted st) (v_cell st) (v_errs st) l).
(** axl_hash_free and axl_list_free do nothing with NULL *)
Definition release_if (st : vst) (there : bool) (b : block) : res vst := if there then release st b else Ok st.
(** a message is built, reported and released, as in axl_dtd.c:2665-2670 *)
Definition error_msg (st : vst) (e : verr) : res vst := release (error_new (alloc st BMsg) e) BMsg.

Section Validate.
(** the names of the child elements and of the element *)
Variable kids : list bytes.
Variable parent : bytes.
Variable fuel : nat.

(** an error that is not reported while trying, axl_dtd.c:2130, 2188, 2283, 2327 and 2404 *)
Definition unless (tr : bool) (st : vst) (e : verr) : vst := if tr then st else error_new st e.
(** no child is left, axl_dtd.c:2080-2139 *)
Definition v_exhausted (tr : bool) (st : vst) (t : times) (one_matched status last : bool) (pos : nat) : step * vst :=
  if times_eqb t TPlus && one_matched && status then (if last then Return true pos else Next pos status, st)
  else if times_eqb t TMany || times_eqb t TOpt then (Return true pos, st) else (Return false pos, unless tr st (EMoreNodes parent)).
(** axl_dtd.c:2066-2264 for an item that is a name *)
Fixpoint v_leaf_loop (fuel : nat) (tr : bool) (st : vst) (it : nat) (y : bytes) (t : times) (last one_matched status : bool) (pos : nat) : res (step * vst) :=
  match nth_error kids pos with
  | None => Ok (v_exhausted tr st t one_matched status last pos)
  | Some x =>
    match fuel with
    | O => NoFuel
    | S fuel =>
      let status := bytes_eqb x y in
      if (times_eqb t TOne || (times_eqb t TPlus && negb one_matched)) && negb status then Ok (Return false pos, unless tr st (EDifferent x y pos it))
      else match t with
           | TOne => Ok (Next (S pos) status, st)
           | TPlus => if negb status && one_matched then Ok (Next pos status, st) else v_leaf_loop fuel tr st it y t last true status (S pos)
           | TOpt => Ok (Next (if status then S pos else pos) status, st)
           | TMany => if status then v_leaf_loop fuel tr st it y t last true status (S pos) else Ok (Next pos status, st)
           | TUnknown => v_leaf_loop fuel tr st it y t last one_matched status pos
           end
    end
  end.
(** axl_dtd.c:2055-2268; [rec] is __axl_dtd_validate_item_list with top_level false: it does
    not know whether it is called while trying *)
Definition v_seq_items (rec : vst -> part -> nat -> res (bool * nat * vst)) (tr : bool) : vst -> nat -> list part -> nat -> bool -> res (step * vst) :=
  fix go st it ps pos status :=
    match ps with
    | [] => Ok (Next pos status, st)
    | p :: ps =>
      let last := match ps with [] => true | _ => false end in
      ' (s, st) <- match p with
           | Leaf y t => v_leaf_loop fuel tr st it y t last false status pos
           | Group _ t _ =>
             match nth_error kids pos with
             | None => Ok (v_exhausted tr st t false status last pos)
             | Some _ => ' (b, pos, st) <- rec st p pos ;; Ok (if b : bool then Next pos status else Return false pos, st)
             end
           end ;;
      match s with Return b pos => Ok (Return b pos, st) | Next pos status => go st (S it) ps pos status end
    end.
(** __axl_dtd_validate_sequence, axl_dtd.c:2032-2298 *)
Definition v_sequence (rec : vst -> part -> nat -> res (bool * nat * vst)) (tr : bool) (st : vst) (t : times) (ps : list part) (pos : nat) (top : bool) : res (bool * nat * vst) :=
  ' (s, st) <- v_seq_items rec tr st 0 ps pos false ;;
  match s with
  | Return b pos => Ok (b, pos, st)
  | Next pos _ => if (times_eqb t TPlus || times_eqb t TOne) && top && (pos <? length kids) then Ok (false, pos, unless tr st EMoreChilds) else Ok (true, pos, st)
  end.
(** axl_dtd.c:2334-2408; nothing is reported for a name *)
Definition v_choice_items (rec : vst -> part -> nat -> res (bool * nat * vst)) (node : bytes) (tr : bool) : vst -> list part -> nat -> res (bool * nat * vst) :=
  fix go st ps pos :=
    match ps with
    | [] => Ok (false, pos, unless tr st EChoiceNone)
    | p :: ps =>
      ' (b, pos, st) <- match p with Leaf y t => ' (b, pos) <- choice_leaf kids fuel y t node false pos ;; Ok (b, pos, st) | Group _ _ _ => rec st p pos end ;;
      if b : bool then Ok (true, pos, st) else go st ps pos
    end.
(** __axl_dtd_validate_choice, axl_dtd.c:2305-2409 *)
Definition v_choice (rec : vst -> part -> nat -> res (bool * nat * vst)) (tr : bool) (st : vst) (ps : list part) (pos : nat) : res (bool * nat * vst) :=
  match nth_error kids pos with
  | None => Ok (false, pos, unless tr st EChoiceEnd)
  | Some node => v_choice_items rec node tr st ps pos
  end.
(** the loops of axl_dtd.c:2521-2550 and 2562-2611: the first time with [tr], without reporting
    once it has matched *)
Fixpoint v_many_loop (fuel : nat) (strict : bool) (e : verr) (f : bool -> vst -> nat -> res (bool * nat * vst)) (tr : bool) (st : vst) (pos : nat) : res (bool * nat * vst) :=
  match fuel with
  | O => NoFuel
  | S fuel =>
    ' (b, pos', st) <- f tr st pos ;;
    if b : bool then v_many_loop fuel strict e f true st pos'
    else if strict && negb (Nat.eqb pos pos') then Ok (false, pos', error_new st e) else Ok (true, pos', st)
  end.
(** __axl_dtd_validate_item_list, axl_dtd.c:2433-2642 *)
Definition v_item_list_with (rec : vst -> part -> nat -> res (bool * nat * vst)) (st : vst) (ty : nested) (t : times) (ps : list part) (pos : nat) (top : bool) : res (bool * nat * vst) :=
  let once tr st pos := if is_sequence ty then v_sequence rec tr st t ps pos top else v_choice rec tr st ps pos in
  ' (b, pos, st) <- match t with
                | TOne => once false st pos
                | TOpt =>
                  ' (b, pos', st) <- once true st pos ;;
                  if is_sequence ty then
                    Ok (b, pos', if negb b && negb (Nat.eqb pos pos') then error_new st EPartOpt else st)
                  else Ok (true, pos', st)
                | TMany => v_many_loop fuel (is_sequence ty) EPartMany once true st pos
                | TPlus => v_many_loop fuel (is_sequence ty) EPartPlus once false st pos
                | TUnknown => Ok (false, pos, error_new st ETimes)
                end ;;
  if negb b then Ok (false, pos, st)
  else if top && is_choice ty && (pos + 1 <? length kids) then Ok (false, pos, error_new st EChoiceRest) else Ok (true, pos, st).
Fixpoint v_item_list (st : vst) (p : part) (pos : nat) : res (bool * nat * vst) :=
  match p with
  | Leaf _ _ => UB
  | Group ty t ps => v_item_list_with v_item_list st ty t ps pos false
  end.
(** the same from __axl_dtd_validate_element_type_children *)
Definition v_item_list_top (st : vst) (p : part) (top : bool) : res (bool * nat * vst) :=
  match p with
  | Leaf _ _ => UB
  | Group ty t ps => v_item_list_with v_item_list st ty t ps 0 top
  end.
(** __axl_dtd_validate_element_type_children, axl_dtd.c:2650-2695 *)
Definition v_children (st : vst) (p : part) (minimum_match : nat) (top : bool) : res (bool * vst) :=
  if length kids <? minimum_match then st <- error_msg st (EFewer parent (length kids) minimum_match) ;; Ok (false, st)
  else
    ' (b, pos, st) <- v_item_list_top st p top ;;
    if b : bool then
      if pos <? length kids then Ok (false, error_new st (ENotCovered pos minimum_match (length kids) parent)) else Ok (true, st)
    else Ok (false, st).
End Validate.

(** ** Attributes *)
(** __axl_dtd_attr_validate_foreach, axl_dtd.c:2756-2803, for one attribute of the element
    [x]: what it reports *)
Definition attr_error (x : bytes) (decls : list at_decl) (p : bytes * bytes) : option verr :=
  match find (fun a => bytes_eqb (ad_name a) (fst p)) decls with
  | None => Some (EUnknownAttr (fst p) x)
  | Some a =>
    match ad_type a with
    | AEnum values => if existsb (fun v => bytes_eqb v (snd p)) values then None else Some (ENotInEnum (fst p) (snd p) x)
    | _ => None
    end
  end.
(** axl_node_attr_foreach, axl_node.c:5823-5854: until one is found *)
Fixpoint first_error (x : bytes) (decls : list at_decl) (l : list (bytes * bytes)) : option verr :=
  match l with
  | [] => None
  | p :: l => match attr_error x decls p with Some e => Some e | None => first_error x decls l end
  end.
(** axl_dtd.c:2853-2862: the error is made in a variable of the function, whatever the caller
    wants, and handed over if there is a place for it; the message is made and released *)
Definition own_error (st : vst) (e : verr) : res vst :=
  st <- release (let st := alloc st BMsg in Vst (v_wanted st) (v_cell st) (e :: v_errs st) (v_mem st)) BMsg ;;
  Ok (if v_wanted st then Vst true (Some e) (v_errs st) (v_mem st) else st).
(** axl_dtd_attr_validate, axl_dtd.c:2838-2943 *)
Definition v_attr (d : dtd) (x : elem) (s : idstate) (st : vst) : res (option idstate * vst) :=
  match get_attr d (e_name x) with
  | None => Ok (Some s, st)
  | Some decls =>
    match first_error (e_name x) decls (e_atts x) with
    | Some e => st <- own_error st e ;; Ok (None, st)
    | None =>
      match find (attr_missing x) decls with
      | Some a => st <- error_msg st (match ad_default a with AFixed => EFixed (ad_name a) (e_name x) | _ => ERequired (ad_name a) (e_name x) end) ;; Ok (None, st)
      | None =>
        ' (o, st) <- (if d_id d then
                match find is_id decls with
                | None => Ok (Some (fst s), st)
                | Some a =>
                  b <- id_exists (fst s) (att x (ad_name a)) ;;
                  if b : bool then st <- error_msg st (EIdTwice (ad_name a) (e_name x)) ;; Ok (None, st)
                  else h <- id_insert (fst s) (att x (ad_name a)) ;; Ok (Some h, st)
                end
              else Ok (Some (fst s), st)) ;;
        match o with
        | None => Ok (None, st)
        | Some h => Ok (Some (h, if d_idref d then option_map (fun l => l ++ refs_of x decls) (snd s) else snd s), st)
        end
      end
    end
  end.
(** axl_dtd_validate_references, axl_dtd.c:2949-2993; axl_list_lookup stops at the first *)
Fixpoint first_unknown (h : option idtab) (l : list bytes) : res (option bytes) :=
  match l with
  | [] => Ok None
  | x :: l => b <- id_exists h (Some x) ;; if b : bool then first_unknown h l else Ok (Some x)
  end.
Definition v_references (s : idstate) (st : vst) : res (bool * vst) :=
  match snd s with
  | None => Ok (true, st)
  | Some l =>
    o <- first_unknown (fst s) l ;;
    match o with
    | None => Ok (true, st)
    | Some r => st <- error_msg st (ERef r) ;; Ok (false, st)
    end
  end.

(** ** Documents *)
(** the content of one element, axl_dtd.c:2650-2754 and 3129-3200 *)
Definition v_content (fuel : nat) (c : el_decl) (x : elem) (top : bool) (st : vst) : res (bool * vst) :=
  match el_ty c with
  | TPcdata => if have_childs x then Ok (false, error_new st EHasChilds) else Ok (true, st)
  | TChildren => p <- of_option (el_list c) ;; v_children (map e_name (e_subs x)) (e_name x) fuel st p (el_min c) top
  | TEmpty =>
    if negb (e_empty x) then st <- error_msg st (ENotEmpty (e_name x)) ;; Ok (false, st)
    else if have_childs x then st <- error_msg st (EEmptyChilds (e_name x)) ;; Ok (false, st)
    else Ok (true, st)
  | TAny | TMixed => Ok (true, st)
  end.
(** every way out releases the stack, the table and the list, axl_dtd.c:3110-3118, 3140-3148,
    3157-3165, 3175-3183, 3242-3250 and 3264-3270 (not always in this order) *)
Definition v_end (d : dtd) (stack : bool) (st : vst) (b : bool) : res (bool * vst) :=
  st <- release_if st stack BStack ;; st <- release_if st (d_id d) BIds ;; st <- release_if st (d_idref d) BRefs ;; Ok (b, st).
(** the loop of axl_dtd_validate, axl_dtd.c:3104-3258 *)
Fixpoint v_loop (fuel cfuel : nat) (d : dtd) (parent : elem) (c : el_decl) (stack : list elem) (s : idstate) (top : bool) (st : vst) : res (bool * vst) :=
  match fuel with
  | O => NoFuel
  | S fuel =>
    ' (o, st) <- v_attr d parent s st ;;
    match o with
    | None => v_end d true st false
    | Some s =>
      ' (b, st) <- v_content cfuel c parent top st ;;
      if negb b then v_end d true st false
      else
        let stack := if is_any c then stack else rev (e_subs parent) ++ stack in
        match stack with
        | [] => if is_any c then v_loop fuel cfuel d parent c [] s false st else ' (b, st) <- v_references s st ;; v_end d true st b
        | e :: stack =>
          match get_element d (e_name e) with
          | None => st <- error_msg st (EUndeclared (e_name e)) ;; v_end d true st false
          | Some c => v_loop fuel cfuel d e c stack s false st
          end
        end
    end
  end.
(** axl_dtd_validate, axl_dtd.c:3020-3276.  The message about the root takes the name of an
    element that is NULL (3050): axl_dtd_get_element_name gives NULL for it *)
Definition v_validate (fuel cfuel : nat) (d : dtd) (root : elem) (wanted : bool) : res (bool * vst) :=
  let st := Vst wanted None [] [] in
  match d_top d with
  | None => st <- error_msg st (ENoElement (e_name root)) ;; Ok (false, st)
  | Some c =>
    match (if bytes_eqb (e_name root) (el_name c) then Some c else get_element d (e_name root)) with
    | None => st <- error_msg st (ERoot (e_name root) None) ;; Ok (false, st)
    | Some c =>
      let st := if d_id d then alloc st BIds else st in
      let st := if d_idref d then alloc st BRefs else st in
      match el_ty c with
      | TEmpty =>
        ' (b, st) <- (if e_empty root && negb (have_childs root) then
                        ' (o, st) <- v_attr d root (id_start d) st ;;
                        match o with None => Ok (false, st) | Some s => v_references s st end
                      else Ok (false, st)) ;;
        v_end d false st b
      | _ => v_loop fuel cfuel d root c [] (id_start d) true (alloc st BStack)
      end
    end
  end.
