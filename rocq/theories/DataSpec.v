(** What is asked of the data attached to contexts, connections and channels. *)
From Coq Require Import String.
From Verif Require Import Base GreetModel DataModel.
Open Scope list_scope.

(** The library frees [p] later: it is in a table with a destroy function. *)
Definition owns (e : ent) (p : Z) : Prop := (e_kd e = true /\ e_key e = p) \/ (e_vd e = true /\ e_val e = p).
Definition owned (st : dst) (p : Z) : Prop := exists h t e, nth_error (d_tabs st) h = Some (Some t) /\ In e t /\ owns e p.
Definition gone (st : dst) (p : Z) : Prop := In p (d_freed st).
Definition usable (st : dst) (h : nat) : Prop := exists t, nth_error (d_tabs st) h = Some (Some t).
(** What an application does: what it gives with a destroy function is its own to give, and given once; the other keys are strings that
    last ([lasting]), as constants do; it frees only what is its own. *)
Definition fresh (lasting : Z -> bool) (st : dst) (p : Z) : Prop := p <> 0 /\ ~ gone st p /\ ~ owned st p /\ lasting p = false.
Definition fits (lasting : Z -> bool) (st : dst) (o : dop) : Prop :=
  match o with
  | ONew => True
  | OSet h k v kd vd =>
      usable st h /\
      (v = 0 -> k <> 0 -> ~ gone st k) /\
      (v <> 0 -> (if kd then fresh lasting st k else lasting k = true) /\ (vd = true -> fresh lasting st v) /\ (kd = true -> vd = true -> k <> v))
  | ODel _ h k => usable st h /\ k <> 0 /\ ~ gone st k
  | OGet h k => usable st h /\ ~ gone st k
  | ORelease h | OMove h => usable st h
  | OFree p => fresh lasting st p
  | OUse p => p <> 0 /\ ~ gone st p
  end.
Fixpoint fits_all (str : Z -> bytes) (lasting : Z -> bool) (st : dst) (os : list dop) : Prop :=
  match os with
  | [] => True
  | o :: os => fits lasting st o /\ forall st' z, dstep str st o = Ok (st', z) -> fits_all str lasting st' os
  end.

(** What get_data is to give: the value last stored, holder by holder. *)
Definition amap := nat -> bytes -> Z.
Definition store (m : amap) (h : nat) (s : bytes) (v : Z) : amap := fun h' s' => if Nat.eqb h' h && bytes_eqb s' s then v else m h' s'.
Definition astep (str : Z -> bytes) (m : amap) (n : nat) (o : dop) : amap * nat * Z :=
  match o with
  | ONew => (m, S n, 0)
  | OSet h k v _ _ => (if k =? 0 then m else store m h (str k) v, n, 0)
  | ODel _ h k => (if k =? 0 then m else store m h (str k) 0, n, 0)
  | OGet h k => (m, n, if k =? 0 then 0 else m h (str k))
  | OMove h => (fun h' s => if Nat.eqb h' n then (if bytes_eqb s (asc "being_closed") then 0 else m h s) else if Nat.eqb h' h then 0 else m h' s, S n, 0)
  | _ => (m, n, 0)
  end.
Fixpoint arun (str : Z -> bytes) (m : amap) (n : nat) (os : list dop) : list Z :=
  match os with [] => [] | o :: os => let '(m, n, z) := astep str m n o in z :: arun str m n os end.
Definition nothing : amap := fun _ _ => 0.

(** What is given with a destroy function. *)
Definition given (o : dop) : list Z :=
  match o with
  | OSet h k v kd vd => if (k =? 0) || (v =? 0) then [] else (if kd then [k] else []) ++ (if vd then [v] else [])
  | _ => []
  end.
(** Neither taken back nor freed by the application. *)
Definition keeps (o : dop) : Prop := match o with ODel _ _ _ | OFree _ => False | _ => True end.
(** The operation leaves alone what is stored under [s] in the holder. *)
Definition apart (str : Z -> bytes) (h : nat) (s : bytes) (o : dop) : Prop :=
  match o with
  | OSet h' k _ _ _ | ODel _ h' k => h' <> h \/ str k <> s
  | ORelease h' | OMove h' => h' <> h
  | _ => True
  end.
