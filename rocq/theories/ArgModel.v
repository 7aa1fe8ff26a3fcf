(** The command line of xml-rpc-gen: the options installed, the parsing of the arguments and what it leaves defined
    (xml-rpc-gen/exarg.c 639-668, 681-795, 1036-1250, 1406-1419, 1489-1541, 1634-1790, 1907-1925).

    Arguments are C strings without their NUL.  Options refer to others by their place in the list.  A program that exits is
    [PExit]; what is printed is not here but for the message on exclusions, which does not exit.  memcmp gives its answer at
    the first byte that differs: [x_over] tells that some call was given a length beyond the NUL of a string.  atoi is an argument of
    the functions that call it.  The text of help and usage, exarg_define and exarg_undef are not modelled. *)
From Coq Require Import String.
From Verif Require Import Base GreetModel.
Open Scope list_scope.

Inductive atype := ANone | AInt | AString.
Record opt := mkO { o_name : bytes; o_short : option bytes; o_type : atype; o_str : option bytes; o_int : Z; o_def : bool; o_optional : bool;
                    o_deps : list nat; o_excl : list nat }.
(** ExArgParseMode (75-88). *)
Inductive mode := MNone | MUnix | MWin.
Record ax := mkX { x_opts : list opt; x_params : list bytes; x_mode : mode; x_nofree : bool; x_over : bool; x_said : bool }.
Definition ax0 : ax := mkX [] [] MNone false false false.
Inductive why := EHelp | EUsage | EUnknown (a : bytes) | ETwice (a : bytes) | ENoValue (a : bytes) | EFree (a : bytes) | EMissing (n : bytes) | EDepends (a b : bytes)
               | EInstalled (n : bytes) | EShort (n : bytes) | EItself | ENotThere (n : bytes).
Inductive pres := PGo (x : ax) | PExit (w : why) | PUB.

(** memcmp (s, lit, strlen (lit)) == 0, and whether the length goes beyond [s] and its NUL. *)
Definition memeq (s lit : bytes) : bool := bytes_eqb (firstn (List.length lit) s) lit.
Definition beyond (s lit : bytes) : bool := zlen s + 1 <? zlen lit.
Definition set_over (x : ax) (b : bool) : ax := mkX (x_opts x) (x_params x) (x_mode x) (x_nofree x) (x_over x || b) (x_said x).
Definition set_mode (x : ax) (m : mode) : ax := mkX (x_opts x) (x_params x) m (x_nofree x) (x_over x) (x_said x).
Definition set_opts (x : ax) (l : list opt) : ax := mkX l (x_params x) (x_mode x) (x_nofree x) (x_over x) (x_said x).
Fixpoint set_at (l : list opt) (i : nat) (o : opt) : list opt :=
  match l, i with [], _ => [] | _ :: r, O => o :: r | y :: r, S i => y :: set_at r i o end.

(** exarg_lookup_node (681-722): the first with that name or short name. *)
Definition called (o : opt) (n : bytes) : bool := bytes_eqb n (o_name o) || match o_short o with Some s => bytes_eqb n s | None => false end.
Fixpoint lookup_node (l : list opt) (n : bytes) : option nat :=
  match l with [] => None | o :: r => if called o n then Some O else option_map S (lookup_node r n) end.

(** CHECK_PARSE_MODE, UPDATE_PARSE_MODE (132, 140-142). *)
Definition mode_is (m m' : mode) : bool := match m, m' with MNone, _ | MUnix, MUnix | MWin, MWin => true | _, _ => false end.
Definition DASH := 45. Definition BAR := 47.
Definition DD : bytes := [DASH; DASH].
Definition short_form (a : bytes) : bool := match a with [c; _] => c =? DASH | _ => false end.
Definition win_start (a : bytes) : bool := (2 <? zlen a) && (nth 0 a 0 =? BAR).
(** exarg_is_argument (727-770). *)
Definition is_argument (x : ax) (a : bytes) : bool * ax :=
  let unix := mode_is (x_mode x) MUnix in
  let x := set_over x (unix && beyond a DD) in
  if unix && memeq a DD then (true, match x_mode x with MNone => set_mode x MUnix | _ => x end)
  else if unix && short_form a then (true, match x_mode x with MNone => set_mode x MUnix | _ => x end)
  else if mode_is (x_mode x) MWin && win_start a then
    if existsb (Z.eqb BAR) (tl a) then (false, x)
    else (true, match x_mode x with MNone => set_mode x MWin | _ => x end)
  else (false, x).
(** exarg_get_argument (772-788). *)
Definition get_argument (x : ax) (a : bytes) : option bytes * ax :=
  let x := set_over x (beyond a DD) in
  (if memeq a DD then Some (skipn 2 a) else if short_form a || win_start a then Some (tl a) else None, x).
(** exarg_check_help_argument (790-795) and the usage (1198-1202). *)
Definition is_help (x : ax) (a : bytes) : bool * ax :=
  (memeq a (asc "help") || memeq a (asc "?"), set_over x (beyond a (asc "help"))).
Definition is_usage (x : ax) (a : bytes) : bool * ax := (memeq a (asc "usage"), set_over x (beyond a (asc "usage"))).
(** __exarg_add_argument (639-668). *)
Definition add_param (x : ax) (a : bytes) : ax := mkX (x_opts x) (x_params x ++ [a]) (x_mode x) (x_nofree x) (x_over x) (x_said x).
(** What an argument leaves in its option (1217-1238). *)
Definition define (o : opt) : opt := mkO (o_name o) (o_short o) (o_type o) (o_str o) (o_int o) true (o_optional o) (o_deps o) (o_excl o).
Definition with_value (atoi : bytes -> Z) (o : opt) (v : bytes) : opt :=
  match o_type o with
  | ANone => define o
  | AInt => mkO (o_name o) (o_short o) (o_type o) (o_str o) (atoi v) true (o_optional o) (o_deps o) (o_excl o)
  | AString => mkO (o_name o) (o_short o) (o_type o) (Some v) (o_int o) true (o_optional o) (o_deps o) (o_excl o)
  end.
(** The loop of exarg_parse (1172-1241); the value is checked by exarg_check_argument_value (1036-1055). *)
Fixpoint parse_loop (atoi : bytes -> Z) (x : ax) (args : list bytes) : pres :=
  match args with
  | [] => PGo x
  | a :: r =>
      let (isarg, x) := is_argument x a in
      if negb isarg then
        if x_nofree x then PExit (EFree a) else parse_loop atoi (add_param x a) r
      else
        let (n, x) := get_argument x a in
        match n with
        | None => PUB
        | Some n =>
            let (h, x) := is_help x n in
            if h then PExit EHelp
            else
              let (u, x) := is_usage x n in
              if u then PExit EUsage
              else
                match lookup_node (x_opts x) n with
                | None => PExit (EUnknown a)
                | Some i =>
                    match nth_error (x_opts x) i with
                    | None => PUB
                    | Some o =>
                        if o_def o then PExit (ETwice a)
                        else
                          match o_type o with
                          | ANone => parse_loop atoi (set_opts x (set_at (x_opts x) i (define o))) r
                          | _ =>
                              match r with
                              | [] => PExit (ENoValue a)
                              | v :: r =>
                                  let (isarg, x) := is_argument x v in
                                  if isarg then PExit (ENoValue a)
                                  else parse_loop atoi (set_opts x (set_at (x_opts x) i (with_value atoi o v))) r
                              end
                          end
                    end
                end
        end
  end.
(** __exarg_parse_check_non_optional (1058-1076). *)
Fixpoint missing (l : list opt) : option bytes :=
  match l with [] => None | o :: r => if negb (o_optional o) && negb (o_def o) then Some (o_name o) else missing r end.
(** __exarg_parse_check_depends (1078-1132): the first option with a dependency that is missing ends the program; the first with
    an exclusion that is there ends the checks, with a message. *)
Definition defined (l : list opt) (i : nat) : bool := match nth_error l i with Some o => o_def o | None => false end.
Definition name_at (l : list opt) (i : nat) : bytes := match nth_error l i with Some o => o_name o | None => [] end.
Inductive dres := DFine | DExit (a b : bytes) | DSaid.
Fixpoint check_depends (all l : list opt) : dres :=
  match l with
  | [] => DFine
  | o :: r =>
      if negb (o_def o) then check_depends all r
      else match find (fun i => negb (defined all i)) (o_deps o) with
           | Some i => DExit (name_at all i) (o_name o)
           | None => if existsb (defined all) (o_excl o) then DSaid else check_depends all r
           end
  end.
(** exarg_parse (1153-1250), with the arguments after the name of the program. *)
Definition parse (atoi : bytes -> Z) (x : ax) (args : list bytes) : pres :=
  match args with
  | [] => match missing (x_opts x) with Some n => PExit (EMissing n) | None => PGo x end
  | _ =>
      match parse_loop atoi x args with
      | PGo x =>
          match missing (x_opts x) with
          | Some n => PExit (EMissing n)
          | None =>
              match check_depends (x_opts x) (x_opts x) with
              | DFine => PGo x
              | DExit a b => PExit (EDepends a b)
              | DSaid => PGo (mkX (x_opts x) (x_params x) (x_mode x) (x_nofree x) (x_over x) true)
              end
          end
      | p => p
      end
  end.

(** * Options *)
(** exarg_install_arg (1489-1541) and __exarg_check_short_arg (1406-1419). *)
Definition short_clash (s : bytes) (o : opt) : bool := match o_short o with Some s' => memeq s' s | None => false end.
Definition install (x : ax) (name : bytes) (short : option bytes) (ty : atype) : pres :=
  match lookup_node (x_opts x) name with
  | Some _ => PExit (EInstalled name)
  | None =>
      match short with
      | Some s => if existsb (short_clash s) (x_opts x) then PExit (EShort s)
                  else PGo (set_opts x (x_opts x ++ [mkO name short ty None 0 false true [] []]))
      | None => PGo (set_opts x (x_opts x ++ [mkO name short ty None 0 false true [] []]))
      end
  end.
(** exarg_add_dependency (1634-1676), exarg_add_exclusion (1693-1737); [excl] tells which. *)
Definition relate (excl : bool) (x : ax) (a b : bytes) : pres :=
  if bytes_eqb a b then PExit EItself
  else
    match lookup_node (x_opts x) a with
    | None => PExit (ENotThere a)
    | Some i =>
        match lookup_node (x_opts x) b with
        | None => PExit (ENotThere b)
        | Some j =>
            match nth_error (x_opts x) i with
            | None => PUB
            | Some o =>
                PGo (set_opts x (set_at (x_opts x) i
                  (mkO (o_name o) (o_short o) (o_type o) (o_str o) (o_int o) (o_def o) (o_optional o)
                       (if excl then o_deps o else j :: o_deps o) (if excl then j :: o_excl o else o_excl o))))
            end
        end
    end.
(** exarg_set_obligatory (1749-1765). *)
Definition obligatory (x : ax) (a : bytes) : ax :=
  match lookup_node (x_opts x) a with
  | None => x
  | Some i =>
      match nth_error (x_opts x) i with
      | None => x
      | Some o => set_opts x (set_at (x_opts x) i (mkO (o_name o) (o_short o) (o_type o) (o_str o) (o_int o) (o_def o) false (o_deps o) (o_excl o)))
      end
  end.
(** exarg_is_defined (1907-1925). *)
Definition is_defined (x : ax) (a : bytes) : bool := match lookup_node (x_opts x) a with Some i => defined (x_opts x) i | None => false end.

(** The options of xml-rpc-gen (xml-rpc-gen/xml-rpc-gen.c 279-298). *)
Definition then_ (p : pres) (f : ax -> pres) : pres := match p with PGo x => f x | p => p end.
Definition gen_options : list (bytes * option bytes * atype) :=
  [(asc "version", Some (asc "v"), ANone); (asc "out-dir", Some (asc "o"), AString); (asc "disable-autoconf", Some (asc "a"), ANone);
   (asc "only-client", Some (asc "c"), ANone); (asc "only-server", Some (asc "s"), ANone); (asc "xdl-format", Some (asc "x"), ANone);
   (asc "idl-format", Some (asc "i"), ANone); (asc "out-server-dir", None, AString); (asc "out-stub-dir", None, AString);
   (asc "disable-main-file", None, ANone); (asc "to-xml", None, ANone); (asc "add-search-path", None, AString)].
Definition install_all (x : ax) (l : list (bytes * option bytes * atype)) : pres :=
  fold_left (fun p d => then_ p (fun x => install x (fst (fst d)) (snd (fst d)) (snd d))) l (PGo x).
