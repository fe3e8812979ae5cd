(** Model of the command line of the tool axl-knife: the functions of knife/exarg.c that read
    it and the function main of knife/axl-knife.c.

    Simplifications: an option is known by its position in the list argument_options, which
    only grows; memcmp stops at the first byte that differs, so that it never goes beyond the
    zero that ends a string; int is unbounded; the texts that are printed (help, usage,
    messages) are not represented, only why the program ends and the messages about options
    that exclude each other, after which it goes on; exarg_end, which releases everything
    before the program ends, is not represented; of the help only the way a text is laid out
    in lines is. *)
From Verif Require Import Prelude.

(** ExArgType, exarg.h *)
Inductive kind := ANone | AInt | AString.

(** struct _ExArgNodeOption, exarg.c:203-253; the lists depends and excludes hold positions *)
Record opt := mkOpt {
  o_name : bytes; o_short : option bytes; o_kind : kind; o_optional : bool; o_defined : bool;
  o_string : option bytes; o_int : Z; o_depends : list nat; o_excludes : list nat }.

(** ExArgParseMode, exarg.c:86-98 *)
Inductive mode := MNone | MUnix | MWindows.

(** the variables of the module, exarg.c:60-98; [x_told] are the messages of lines 1123-1125 *)
Record exarg := mkExarg {
  x_opts : list opt; x_params : list bytes; x_mode : mode; x_nofree : bool;
  x_told : list (bytes * bytes) }.

(** why exit is called *)
Inductive why :=
| Help | Usage | FreeArg (a : bytes) | Unknown (a : bytes) | Twice (a : bytes)
| NoValue | ValueIsOption (v : bytes) | Required (n : bytes) | Depends (n d : bytes)
| Conflict (n : bytes) | Itself (n : bytes) | NoSuch (n : bytes) | NotString (n : bytes) | NotInt (n : bytes).

(** the status given to exit: exarg.c:1196, 1203 and 117, 1047, 1055 *)
Definition status (w : why) : Z := match w with Help | Usage => 0 | _ => -1 end%Z.

(** a function goes on or ends the program *)
Inductive out (A : Type) := Goes (a : A) | Ends (w : why).
Arguments Goes {A} a.
Arguments Ends {A} w.

Definition then_ {A B} (o : out A) (k : A -> out B) : out B :=
  match o with Goes a => k a | Ends w => Ends w end.

(** !memcmp (a, w, strlen (w)) *)
Fixpoint begins (w a : bytes) : bool :=
  match w, a with
  | [], _ => true
  | c :: w', d :: a' => Ascii.eqb c d && begins w' a'
  | _ :: _, [] => false
  end.

(** the test of exarg_lookup_node, exarg.c:701-715 *)
Definition called (o : opt) (n : bytes) : bool :=
  bytes_eqb n (o_name o) || match o_short o with Some s => bytes_eqb n s | None => false end.

(** exarg_lookup_node, exarg.c:685-726 *)
Fixpoint lookup_from (k : nat) (l : list opt) (n : bytes) : option nat :=
  match l with
  | [] => None
  | o :: l' => if called o n then Some k else lookup_from (S k) l' n
  end.
Definition lookup (l : list opt) (n : bytes) : option nat := lookup_from 0 l n.

(** a change of the option at a position *)
Fixpoint upd (l : list opt) (i : nat) (f : opt -> opt) : list opt :=
  match l, i with
  | [], _ => []
  | o :: l', O => f o :: l'
  | o :: l', S i' => o :: upd l' i' f
  end.

Definition set_opts (st : exarg) (l : list opt) : exarg :=
  mkExarg l (x_params st) (x_mode st) (x_nofree st) (x_told st).
Definition set_mode (st : exarg) (m : mode) : exarg :=
  mkExarg (x_opts st) (x_params st) m (x_nofree st) (x_told st).

(** CHECK_PARSE_MODE, exarg.c:130 *)
Definition unix_ok (m : mode) : bool := match m with MWindows => false | _ => true end.
Definition windows_ok (m : mode) : bool := match m with MUnix => false | _ => true end.

(** exarg_is_argument, exarg.c:731-774; the mode it leaves and its result *)
Definition is_argument (m : mode) (a : bytes) : mode * bool :=
  if unix_ok m && begins (s2b "--") a then (MUnix, true)
  else if unix_ok m && Nat.eqb (length a) 2 && begins (s2b "-") a then (MUnix, true)
  else if windows_ok m && Nat.ltb 2 (length a) && begins (s2b "/") a then
    if existsb (Ascii.eqb "/") (tl a) then (m, false) else (MWindows, true)
  else (m, false).

(** exarg_get_argument, exarg.c:776-792 *)
Definition get_argument (a : bytes) : option bytes :=
  if begins (s2b "--") a then Some (skipn 2 a)
  else if Nat.eqb (length a) 2 && begins (s2b "-") a then Some (tl a)
  else if Nat.ltb 2 (length a) && begins (s2b "/") a then Some (tl a)
  else None.

(** exarg_check_help_argument, exarg.c:794-799 *)
Definition check_help (w : bytes) : bool := begins (s2b "help") w || begins (s2b "?") w.

(** atoi: white space, a sign, digits *)
Definition digit (c : ascii) : option Z :=
  let n := nat_of_ascii c in
  if Nat.leb 48 n && Nat.leb n 57 then Some (Z.of_nat (n - 48)) else None.
Fixpoint digits (acc : Z) (a : bytes) : Z :=
  match a with
  | c :: a' => match digit c with Some d => digits (acc * 10 + d) a' | None => acc end
  | [] => acc
  end.
Fixpoint atoi (a : bytes) : Z :=
  match a with
  | c :: a' =>
    let n := nat_of_ascii c in
    if Nat.eqb n 32 || (Nat.leb 9 n && Nat.leb n 13) then atoi a'
    else if Ascii.eqb c "-" then (- digits 0 a')%Z
    else if Ascii.eqb c "+" then digits 0 a'
    else digits 0 a
  | [] => 0%Z
  end.

(** node->is_defined = 1, exarg.c:1221; node->int_value and node->string_value, 1233 and 1240 *)
Definition mark (o : opt) : opt :=
  mkOpt (o_name o) (o_short o) (o_kind o) (o_optional o) true (o_string o) (o_int o) (o_depends o) (o_excludes o).
Definition put_int (v : bytes) (o : opt) : opt :=
  mkOpt (o_name o) (o_short o) (o_kind o) (o_optional o) (o_defined o) (o_string o) (atoi v) (o_depends o) (o_excludes o).
Definition put_string (v : bytes) (o : opt) : opt :=
  mkOpt (o_name o) (o_short o) (o_kind o) (o_optional o) (o_defined o) (Some v) (o_int o) (o_depends o) (o_excludes o).

(** __exarg_add_argument, exarg.c:643-669 *)
Definition add_argument (st : exarg) (a : bytes) : exarg :=
  mkExarg (x_opts st) (x_params st ++ [a]) (x_mode st) (x_nofree st) (x_told st).

(** the loop of exarg_parse, exarg.c:1175-1247, with exarg_check_argument_value, 1040-1060;
    [args] is argv from iterator on, the end of which is the NULL that ends argv *)
Fixpoint parse_loop (st : exarg) (args : list bytes) : out exarg :=
  match args with
  | [] => Goes st
  | a :: rest =>
    let (m, isarg) := is_argument (x_mode st) a in
    let st := set_mode st m in
    if negb isarg then
      if x_nofree st then Ends (FreeArg a) else parse_loop (add_argument st a) rest
    else
      match get_argument a with
      | None => Ends (Unknown a)
      | Some w =>
        if check_help w then Ends Help
        else if begins (s2b "usage") w then Ends Usage
        else
          match lookup (x_opts st) w with
          | None => Ends (Unknown a)
          | Some i =>
            match nth_error (x_opts st) i with
            | None => Ends (Unknown a)
            | Some o =>
              if o_defined o then Ends (Twice a)
              else
                let st := set_opts st (upd (x_opts st) i mark) in
                match o_kind o with
                | ANone => parse_loop st rest
                | k =>
                  match rest with
                  | [] => Ends NoValue
                  | v :: rest' =>
                    let (m', isval) := is_argument (x_mode st) v in
                    let st := set_mode st m' in
                    if isval then Ends (ValueIsOption v)
                    else
                      let put := match k with AInt => put_int v | _ => put_string v end in
                      parse_loop (set_opts st (upd (x_opts st) i put)) rest'
                  end
                end
            end
          end
      end
  end.

(** __exarg_parse_check_non_optional, exarg.c:1062-1080 *)
Fixpoint check_required (l : list opt) : out unit :=
  match l with
  | [] => Goes tt
  | o :: l' => if negb (o_optional o) && negb (o_defined o) then Ends (Required (o_name o)) else check_required l'
  end.

(** the first loop over the dependencies of an option, exarg.c:1099-1113 *)
Fixpoint check_depends (all : list opt) (n : bytes) (deps : list nat) : res (out unit) :=
  match deps with
  | [] => Ok (Goes tt)
  | d :: deps' =>
    o <- of_option (nth_error all d) ;;
    if o_defined o then check_depends all n deps' else Ok (Ends (Depends n (o_name o)))
  end.

(** the second loop, exarg.c:1116-1133: the option excluded, if one is defined *)
Fixpoint check_excludes (all : list opt) (deps : list nat) : res (option bytes) :=
  match deps with
  | [] => Ok None
  | d :: deps' =>
    o <- of_option (nth_error all d) ;;
    if o_defined o then Ok (Some (o_name o)) else check_excludes all deps'
  end.

(** __exarg_parse_check_depends, exarg.c:1082-1141; the message it prints when an option is
    excluded, after which it returns *)
Fixpoint check_all (all l : list opt) : res (out (option (bytes * bytes))) :=
  match l with
  | [] => Ok (Goes None)
  | o :: l' =>
    if negb (o_defined o) then check_all all l'
    else
      d <- check_depends all (o_name o) (o_depends o) ;;
      match d with
      | Ends w => Ok (Ends w)
      | Goes _ =>
        e <- check_excludes all (o_excludes o) ;;
        match e with
        | Some x => Ok (Goes (Some (o_name o, x)))
        | None => check_all all l'
        end
      end
  end.

(** exarg_parse, exarg.c:1157-1257; without argv[0] the function exarg_basename reads NULL *)
Definition parse (st : exarg) (argv : list bytes) : res (out exarg) :=
  match argv with
  | [] => UB
  | [_] => Ok (then_ (check_required (x_opts st)) (fun _ => Goes st))
  | _ :: args =>
    match parse_loop st args with
    | Ends w => Ok (Ends w)
    | Goes st =>
      match check_required (x_opts st) with
      | Ends w => Ok (Ends w)
      | Goes _ =>
        c <- check_all (x_opts st) (x_opts st) ;;
        match c with
        | Ends w => Ok (Ends w)
        | Goes None => Ok (Goes st)
        | Goes (Some p) =>
          Ok (Goes (mkExarg (x_opts st) (x_params st) (x_mode st) (x_nofree st) (x_told st ++ [p])))
        end
      end
    end
  end.

(** the variables before any function is called, exarg.c:60-98 *)
Definition start : exarg := mkExarg [] [] MNone false [].

(** exarg_install_arg, exarg.c:1493-1545, with __exarg_check_short_arg, 1410-1422 *)
Definition install (st : exarg) (n : bytes) (s : option bytes) (k : kind) : out exarg :=
  match lookup (x_opts st) n with
  | Some _ => Ends (Conflict n)
  | None =>
    let clash :=
      match s with
      | None => false
      | Some s => existsb (fun o => match o_short o with Some t => begins s t | None => false end) (x_opts st)
      end in
    if clash then Ends (Conflict n)
    else Goes (set_opts st (x_opts st ++ [mkOpt n s k true false None 0 [] []]))
  end.

Definition push_depend (j : nat) (o : opt) : opt :=
  mkOpt (o_name o) (o_short o) (o_kind o) (o_optional o) (o_defined o) (o_string o) (o_int o) (j :: o_depends o) (o_excludes o).
Definition push_exclude (j : nat) (o : opt) : opt :=
  mkOpt (o_name o) (o_short o) (o_kind o) (o_optional o) (o_defined o) (o_string o) (o_int o) (o_depends o) (j :: o_excludes o).
Definition oblige (o : opt) : opt :=
  mkOpt (o_name o) (o_short o) (o_kind o) false (o_defined o) (o_string o) (o_int o) (o_depends o) (o_excludes o).

(** exarg_add_dependency, exarg.c:1638-1682, and exarg_add_exclusion, 1697-1742 *)
Definition add_relation (push : nat -> opt -> opt) (st : exarg) (a b : bytes) : out exarg :=
  if bytes_eqb a b then Ends (Itself a)
  else
    match lookup (x_opts st) a with
    | None => Ends (NoSuch a)
    | Some i =>
      match lookup (x_opts st) b with
      | None => Ends (NoSuch b)
      | Some j => Goes (set_opts st (upd (x_opts st) i (push j)))
      end
    end.
Definition add_dependency := add_relation push_depend.
Definition add_exclusion := add_relation push_exclude.

(** exarg_set_obligatory, exarg.c:1753-1770 *)
Definition set_obligatory (st : exarg) (a : bytes) : exarg :=
  match lookup (x_opts st) a with
  | None => st
  | Some i => set_opts st (upd (x_opts st) i oblige)
  end.

(** exarg_accept_free_args, exarg.c:1792-1798 *)
Definition accept_free_args (st : exarg) (accept : bool) : exarg :=
  mkExarg (x_opts st) (x_params st) (x_mode st) (negb accept) (x_told st).

(** exarg_is_defined, exarg.c:1911-1927 *)
Definition is_defined (st : exarg) (n : bytes) : bool :=
  match lookup (x_opts st) n with
  | None => false
  | Some i => match nth_error (x_opts st) i with Some o => o_defined o | None => false end
  end.

(** exarg_get_string, exarg.c:1992-2015 *)
Definition get_string (st : exarg) (n : bytes) : out (option bytes) :=
  match x_opts st with
  | [] => Goes None
  | _ =>
    match lookup (x_opts st) n with
    | None => Ends (NoSuch n)
    | Some i =>
      match nth_error (x_opts st) i with
      | None => Ends (NoSuch n)
      | Some o => match o_kind o with AString => Goes (o_string o) | _ => Ends (NotString n) end
      end
    end
  end.

(** exarg_get_int, exarg.c:2047-2071 *)
Definition get_int (st : exarg) (n : bytes) : out Z :=
  match x_opts st with
  | [] => Goes (-1)%Z
  | _ =>
    match lookup (x_opts st) n with
    | None => Ends (NoSuch n)
    | Some i =>
      match nth_error (x_opts st) i with
      | None => Ends (NoSuch n)
      | Some o => match o_kind o with AInt => Goes (o_int o) | _ => Ends (NotInt n) end
      end
    end
  end.

(** what a program does before exarg_parse *)
Inductive step :=
| Install (n : bytes) (s : option bytes) (k : kind)
| Dependency (a b : bytes)
| Exclusion (a b : bytes)
| Obligatory (a : bytes)
| Free (accept : bool).

Definition do_step (st : exarg) (s : step) : out exarg :=
  match s with
  | Install n s k => install st n s k
  | Dependency a b => add_dependency st a b
  | Exclusion a b => add_exclusion st a b
  | Obligatory a => Goes (set_obligatory st a)
  | Free b => Goes (accept_free_args st b)
  end.
Fixpoint do_steps (st : exarg) (l : list step) : out exarg :=
  match l with
  | [] => Goes st
  | s :: l' => then_ (do_step st s) (fun st => do_steps st l')
  end.

(** the options of axl-knife, axl-knife.c:703-749 *)
Definition knife_steps : list step :=
  [ Install (s2b "version") (Some (s2b "v")) ANone;
    Install (s2b "input") (Some (s2b "i")) AString;
    Install (s2b "output") (Some (s2b "o")) AString;
    Install (s2b "ifnewer") (Some (s2b "n")) ANone;
    Install (s2b "htmlize") (Some (s2b "e")) ANone;
    Install (s2b "htmlize-skip-first-enter-for-content") (Some (s2b "r")) ANone;
    Install (s2b "pre-class") (Some (s2b "p")) AString;
    Install (s2b "enable-log") (Some (s2b "l")) ANone;
    Install (s2b "enable-log-color") (Some (s2b "g")) ANone;
    Install (s2b "dtd-to-c") None ANone;
    Install (s2b "check-xml") (Some (s2b "c")) ANone;
    Dependency (s2b "htmlize") (s2b "input");
    Dependency (s2b "pre-class") (s2b "htmlize");
    Dependency (s2b "dtd-to-c") (s2b "input");
    Dependency (s2b "check-xml") (s2b "input");
    Dependency (s2b "ifnewer") (s2b "input");
    Dependency (s2b "ifnewer") (s2b "output");
    Exclusion (s2b "htmlize") (s2b "dtd-to-c") ].

(** what the files are: if they exist and when they were changed (stat), if
    axl_doc_parse_from_file and axl_dtd_parse_from_file load them, if they can be written *)
Record world := mkWorld {
  w_exists : bytes -> bool; w_time : bytes -> Z; w_doc : bytes -> bool; w_dtd : bytes -> bool;
  w_writes : bytes -> bool }.

(** what the tool does; None is the standard output *)
Inductive event :=
| Version
| NoAction
| DocLoaded (f : bytes) | DocFailed (f : bytes)
| Htmlized (f : bytes) (to_ : option bytes)
| DtdFailed (f : bytes)
| Header (f : bytes) (to_ : option bytes)
| NoOutput (f : bytes)
| DocOk.

(** how the tool ends *)
Record ended := mkEnded { e_events : list event; e_status : Z }.

(** exarg_get_string where the value is used as the name of a file *)
Definition file_name (st : exarg) (n : bytes) : res bytes :=
  match get_string st n with
  | Goes (Some f) => Ok f
  | _ => UB
  end.

(** the check of the output, axl-knife.c:525-534 and 576-585 *)
Definition output (w : world) (st : exarg) (k : option bytes -> event) : res (list event) :=
  if is_defined st (s2b "output") then
    f <- file_name st (s2b "output") ;;
    if w_writes w f then Ok [k (Some f)] else Ok [NoOutput f]
  else Ok [k None].

(** axl_knife_htmlize, axl-knife.c:516-545; without a document it prints the name of no node,
    which is UB *)
Definition htmlize (w : world) (st : exarg) (doc : option bytes) : res (list event) :=
  f <- of_option doc ;;
  output w st (Htmlized f).

(** axl_knife_dtd_to_c, axl-knife.c:547-658 (what it writes is in KnifeModel) *)
Definition dtd_to_c (w : world) (st : exarg) : res (list event) :=
  f <- file_name st (s2b "input") ;;
  if w_dtd w f then output w st (Header f) else Ok [DtdFailed f].

(** the test of --ifnewer, axl-knife.c:763-771, with axl_knife_check_if_newer, 670-683, and
    axl_knife_file_test, 845-915 *)
Definition up_to_date (w : world) (st : exarg) : res bool :=
  if is_defined st (s2b "ifnewer") then
    i <- file_name st (s2b "input") ;;
    o <- file_name st (s2b "output") ;;
    Ok (w_exists w i && w_exists w o && negb (w_time w o <? w_time w i)%Z)
  else Ok false.

(** the rest of main once the options are read, axl-knife.c:757-832; [vlen] is what printf
    returns for the line with the version *)
Definition act (vlen : Z) (w : world) (st : exarg) : res ended :=
  let def (n : string) := is_defined st (s2b n) in
  if def "version"%string then Ok (mkEnded [Version] vlen)
  else
    done <- up_to_date w st ;;
    if (done : bool) then Ok (mkEnded [] 0)
    else if negb (def "htmlize"%string) && negb (def "check-xml"%string) && negb (def "dtd-to-c"%string) then
      Ok (mkEnded [NoAction] 0)
    else
      '(doc, evs, go) <-
        (if def "dtd-to-c"%string then Ok (None, [], true)
         else if def "input"%string then
           f <- file_name st (s2b "input") ;;
           if w_doc w f then Ok (Some f, [DocLoaded f], true) else Ok (None, [DocFailed f], false)
         else Ok (None, [], true)) ;;
      if (go : bool) then
        more <-
          (if def "htmlize"%string then htmlize w st doc
           else if def "dtd-to-c"%string then dtd_to_c w st
           else if def "check-xml"%string then Ok [DocOk]
           else Ok []) ;;
        Ok (mkEnded (evs ++ more) 0)
      else Ok (mkEnded evs 0).

(** main, axl-knife.c:686-832 *)
Definition main (vlen : Z) (w : world) (argv : list bytes) : res ended :=
  match do_steps start knife_steps with
  | Ends e => Ok (mkEnded [] (status e))
  | Goes st =>
    o <- parse st argv ;;
    match o with
    | Ends e => Ok (mkEnded [] (status e))
    | Goes st => act vlen w st
    end
  end.

(** exarg_split, exarg.c:330-451, for the separator " ": the pieces between spaces *)
Fixpoint words_from (cur t : bytes) : list bytes :=
  match t with
  | [] => [cur]
  | c :: t' => if Ascii.eqb c " " then cur :: words_from [] t' else words_from (cur ++ [c]) t'
  end.
Definition words (t : bytes) : list bytes := words_from [] t.

(** the loop of exarg_wrap_and_print, exarg.c:819-846, and what follows it: the lines that are
    printed; [line] is working_line *)
Fixpoint wrap_loop (ws : list bytes) (size : nat) (fill : bytes) (line : option bytes) (sum : nat) (first : bool) : list bytes :=
  match ws with
  | [] => if Nat.eqb sum 0 then [] else match line with Some l => [fill ++ l] | None => [fill] end
  | w :: ws' =>
    let line := match line with Some l => l ++ s2b " " ++ w | None => w end in
    let sum := sum + length w + 1 in
    if Nat.leb size sum then
      (if first then line else fill ++ line) :: wrap_loop ws' size fill None 0 false
    else wrap_loop ws' size fill (Some line) sum first
  end.

(** exarg_wrap_and_print, exarg.c:801-850 *)
Definition wrap (text : bytes) (size : nat) (fill : bytes) : list bytes :=
  if Nat.leb (length text) size then [text] else wrap_loop (words text) size fill None 0 true.
