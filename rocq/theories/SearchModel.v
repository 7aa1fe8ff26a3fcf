(** The search path of data files: vortex_support_check_search_path
    (src/vortex_support.c:293-325), add_search_path (264-272), add_search_path_ref
    (347-363), add_domain_search_path (382-398), add_domain_search_path_ref
    (409-460) and vortex_support_domain_find_data_file (522-586).

    Strings are lists of octets.  A step is a critical section of
    search_path_mutex, so calls of several threads may interleave.  Whether a
    file exists and is a regular file is told by an oracle.  Where
    axl_list_add puts an item of a list created with axl_list_always_return_1
    is a parameter: the library documents that it is the end. *)
From Verif Require Import Base.

Definition str := list Z.
Fixpoint seqb (a b : str) : bool :=
  match a, b with [], [] => true | x :: k, y :: l => (x =? y) && seqb k l | _, _ => false end.
Record node := mkN { n_dom : str; n_path : str }.
(** "default" *)
Definition default : str := [100; 101; 102; 97; 117; 108; 116].
Definition dot : str := [46].
Definition slash : str := [47].

(** vortex_support_check_search_path. *)
Definition check (l : list node) (d p : str) : bool := existsb (fun n => seqb (n_dom n) d && seqb (n_path n) p) l.

(** A call in course: what it adds and what it has to do: check its domain (382-393,
    or 352), check "default" (424), add. *)
Inductive stage := SDom | SDef | SAdd.
Record call := mkC { c_dom : str; c_path : str; c_stage : stage }.
Inductive sobs :=
| OKept (d p : str)
| OSkip (d p : str)
| OFound (d name : str) (r : option str).
Record sp := mkS { s_nodes : list node; s_calls : list (nat * call); s_log : list sobs }.
Definition sp0 : sp := mkS [] [] [].

(** The name of the file for a path (546-549). *)
Definition file_of (p name : str) : str := if seqb p dot then name else p ++ slash ++ name.
(** vortex_support_domain_find_data_file. *)
Fixpoint find_file (fs : str -> bool) (l : list node) (d name : str) : option str :=
  match l with
  | [] => None
  | n :: k => if seqb (n_dom n) d then (if fs (file_of (n_path n) name) then Some (file_of (n_path n) name) else find_file fs k d name) else find_file fs k d name
  end.

(** [SCall t ref d p]: thread [t] calls vortex_support_add_domain_search_path, or, with
    [ref], vortex_support_add_domain_search_path_ref, which does not check its domain
    first; [SStep t]: it continues; [SFind]: a lookup, with the state of the file
    system.  add_search_path and add_search_path_ref are the first with "default". *)
Inductive sev :=
| SCall (t : nat) (ref : bool) (d p : str)
| SStep (t : nat)
| SFind (d name : str) (fs : str -> bool).
Definition call_of (l : list (nat * call)) (t : nat) : option call := match find (fun e => Nat.eqb (fst e) t) l with Some e => Some (snd e) | None => None end.
Definition drop (l : list (nat * call)) (t : nat) : list (nat * call) := filter (fun e => negb (Nat.eqb (fst e) t)) l.

Definition sstep (place : list node -> node -> list node) (s : sp) (e : sev) : sp :=
  match e with
  | SCall t ref d p =>
      match call_of (s_calls s) t with
      | Some _ => s
      | None => mkS (s_nodes s) ((t, mkC d p (if ref then SDef else SDom)) :: s_calls s) (s_log s)
      end
  | SStep t =>
      match call_of (s_calls s) t with
      | None => s
      | Some c =>
          let rest := drop (s_calls s) t in
          let skip := mkS (s_nodes s) rest (s_log s ++ [OSkip (c_dom c) (c_path c)]) in
          match c_stage c with
          | SDom => if check (s_nodes s) (c_dom c) (c_path c) then skip else mkS (s_nodes s) ((t, mkC (c_dom c) (c_path c) SDef) :: rest) (s_log s)
          | SDef => if check (s_nodes s) default (c_path c) then skip else mkS (s_nodes s) ((t, mkC (c_dom c) (c_path c) SAdd) :: rest) (s_log s)
          | SAdd => if check (s_nodes s) (c_dom c) (c_path c) then skip
                    else mkS (place (s_nodes s) (mkN (c_dom c) (c_path c))) rest (s_log s ++ [OKept (c_dom c) (c_path c)])
          end
      end
  | SFind d name fs => mkS (s_nodes s) (s_calls s) (s_log s ++ [OFound d name (find_file fs (s_nodes s) d name)])
  end.
Fixpoint srun (place : list node -> node -> list node) (s : sp) (es : list sev) : sp :=
  match es with [] => s | e :: k => srun place (sstep place s e) k end.
(** At the end. *)
Definition at_end (l : list node) (n : node) : list node := l ++ [n].
