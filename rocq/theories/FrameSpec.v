(** The contract of the frame functions, stated from the calls of the
    application and their results, and what a frame is for it. *)
From Verif Require Import Base CodecModel MimeModel MimeSpec HdrModel FrameModel.

(** What the application knows of a frame it got: the references it holds, how
    the frame came to be, the sizes it reports. *)
Record tk := mkTK {
  t_held : Z;
  t_recv : bool;     (* read from a connection *)
  t_proc : bool;     (* its MIME headers were separated from the body *)
  t_exact : bool;    (* the size of its content is the one of the memory behind it *)
  t_term : bool;     (* its payload ends with a zero byte *)
  t_gone : bool;     (* given to vortex_frame_join_extending *)
  t_hdrs : bool;     (* it may have MIME headers *)
  t_size : Z; t_hsize : Z
}.

Definition with_held (t : tk) (h : Z) : tk :=
  mkTK h (t_recv t) (t_proc t) (t_exact t) (t_term t) (t_gone t) (t_hdrs t) (t_size t) (t_hsize t).

(** The size reported for the two headers given to a creation. *)
Definition head_add (z : Z) (name : Z) (v : option bytes) : Z :=
  match v with None => z | Some c => z + name + zlen c + (if z =? 0 then 4 else 2) end.
Definition heads_size (a : fargs) : Z := head_add (head_add 0 12 (a_ctype a)) 25 (a_enc a).
Definition has_heads (a : fargs) : bool :=
  match a_ctype a, a_enc a with None, None => false | _, _ => true end.

Definition track (T : list tk) (e : fop * fobs) : list tk :=
  match e with
  | (FCreate a _, ONew _) =>
      T ++ [mkTK 1 false false (negb (has_heads a)) true false (has_heads a) (a_size a) (heads_size a)]
  | (FCreateRef a _, ONew _) =>
      T ++ [mkTK 1 false false (negb (has_heads a)) false false (has_heads a) (a_size a) (heads_size a)]
  | (FReceive a _ c, ONew _) => T ++ [mkTK 1 true false true true false false (zlen c) 0]
  | (FMime i, OMime true z) =>
      match nth_error T i with
      | Some t => upd_nth T i (mkTK (t_held t) (t_recv t) true true (t_term t) (t_gone t) true
                                    (t_size t - z) z)
      | None => T
      end
  | (FHead i (HSet n c), OUnit) =>
      match nth_error T i with
      | Some t => upd_nth T i (mkTK (t_held t) (t_recv t) (t_proc t) false (t_term t) (t_gone t) true
                                    (t_size t) (head_add (t_hsize t) (zlen n) (Some c)))
      | None => T
      end
  | (FCopy i, ONew _) =>
      match nth_error T i with
      | Some t => T ++ [mkTK 1 false (t_proc t) true true false (t_hdrs t) (t_size t) (if t_proc t then t_hsize t else 0)]
      | None => T
      end
  | (FJoin r i j, ONew _) =>
      match nth_error T i, nth_error T j with
      | Some a, Some b =>
          upd_nth T i (mkTK (t_held a) (t_recv a) (t_proc a) (t_exact a) (t_term a) (r || t_gone a) false (t_size a) (t_hsize a))
          ++ [mkTK 1 false false (t_hsize a =? 0) (negb r) false (t_hdrs a) (t_size a + t_size b) (t_hsize a)]
      | _, _ => T
      end
  | (FRef i, _) => match nth_error T i with Some t => upd_nth T i (with_held t (t_held t + 1)) | None => T end
  | (FUnref i, _) => match nth_error T i with Some t => upd_nth T i (with_held t (t_held t - 1)) | None => T end
  | _ => T
  end.

Definition held_ok (T : list tk) (i : nat) (P : tk -> Prop) : Prop :=
  exists t, nth_error T i = Some t /\ 0 < t_held t /\ P t.
Definition usable (T : list tk) (i : nat) (P : tk -> Prop) : Prop := held_ok T i (fun t => t_gone t = false /\ P t).

Definition defined (l : bytes) : Prop := Forall (fun c => 0 <= c) l.
Definition room (T : list tk) : Prop := zlen T < two31 - 2.
(** The arguments of a creation: the size is the one of the memory given. *)
Definition args_ok (a : fargs) (m : option bytes) : Prop :=
  0 <= a_size a < two31 - 1 /\ heads_size a < two31 /\
  (0 < a_size a -> exists l, m = Some l /\ a_size a <= zlen l /\ defined l).

(** The calls the contract allows. *)
Definition allowed (T : list tk) (o : fop) : Prop :=
  match o with
  | FCreate a m | FCreateRef a m => room T /\ args_ok a m
  | FReceive a _ c => room T /\ defined c /\ zlen c + 6 < two31
  | FMime i => usable T i (fun t => t_recv t = true /\ t_proc t = false /\ t_hdrs t = false)
  | FHead i (HSet n c) => usable T i (fun t => t_hsize t + zlen n + zlen c + 4 < two31)
  | FHead i (HDel _) => False
  | FCopy i => room T /\ usable T i (fun t => t_proc t = true -> t_exact t = true)
  | FJoin r i j =>
      room T /\ i <> j /\
      usable T i (fun a => (r = true -> t_recv a = false /\ t_proc a = false) /\
        usable T j (fun b => t_size a + t_size b + 1 < two31))
  | FRef i => held_ok T i (fun t => t_held t < two31 - 1)
  | FUnref i => held_ok T i (fun _ => True)
  | FEqual i j => usable T i (fun t => t_term t = true) /\ usable T j (fun t => t_term t = true)
  | FPayload i | FInfo i => usable T i (fun _ => True)
  | FContent i => usable T i (fun t => t_exact t = true)
  end.

(** A program that keeps the contract, whatever it is answered. *)
Definition tracked (log : list (fop * fobs)) : list tk := fold_left track log [].
Fixpoint keeps (s : fm) (log : list (fop * fobs)) (os : list fop) : Prop :=
  match os with
  | [] => True
  | o :: r =>
      allowed (tracked log) o /\
      match fstep s o with Ok (s', b) => keeps s' (log ++ [(o, b)]) r | UB => True end
  end.

(** The contract one would expect: the calls only use frames the application
    holds a reference to, with the sizes of the memory given and within an int. *)
Definition held_only (T : list tk) (o : fop) : Prop :=
  let some i := held_ok T i (fun t => t_size t + t_hsize t < two31 / 4) in
  match o with
  | FCreate a m | FCreateRef a m => room T /\ args_ok a m
  | FReceive a _ c => room T /\ defined c /\ zlen c + 6 < two31
  | FMime i => some i /\ usable T i (fun t => t_recv t = true /\ t_proc t = false /\ t_hdrs t = false)
  | FHead i (HSet n c) => some i /\ zlen n + zlen c < two31 / 4
  | FHead i (HDel _) => some i
  | FCopy i => room T /\ some i
  | FJoin _ i j => room T /\ some i /\ some j
  | FRef i | FUnref i | FPayload i | FContent i | FInfo i => some i
  | FEqual i j => some i /\ some j
  end.
Fixpoint keeps_held (s : fm) (log : list (fop * fobs)) (os : list fop) : Prop :=
  match os with
  | [] => True
  | o :: r =>
      held_only (tracked log) o /\
      match fstep s o with Ok (s', b) => keeps_held s' (log ++ [(o, b)]) r | UB => True end
  end.

(** No reference is held any more. *)
Definition all_released (T : list tk) : Prop := forall t, In t T -> t_held t = 0.
Definition nothing_left (s : fm) : Prop :=
  (forall x, In x (m_heap s) -> x = None) /\ (forall x, In x (m_stat s) -> x = None) /\
  (forall x, In x (m_frames s) -> x = None) /\ m_ctx s = 0.

(** * Frames as values: what the application should read back *)
Record vf := mkVF {
  v_type : ftype; v_ch : Z; v_msgno : Z; v_more : bool; v_seqno : Z; v_ans : Z; v_chref : Z;
  v_hsize : Z;        (* the size of the headers reported *)
  v_plain : bool;     (* nothing gave it MIME headers *)
  v_head : bytes;     (* the MIME headers of the content *)
  v_body : bytes
}.
Definition with_hsize (v : vf) (z : Z) : vf :=
  mkVF (v_type v) (v_ch v) (v_msgno v) (v_more v) (v_seqno v) (v_ans v) (v_chref v) z false (v_head v) (v_body v).
Definition given_bytes (a : fargs) (m : option bytes) : bytes :=
  match m with Some l => firstn (Z.to_nat (a_size a)) l | None => [] end.
Definition new_value (a : fargs) (l : bytes) : vf :=
  mkVF (a_type a) (a_ch a) (a_msgno a) false (a_seqno a) (a_ans a) 0 (heads_size a) (negb (has_heads a)) [] l.

Definition vnext (V : list vf) (e : fop * fobs) : list vf :=
  match e with
  | (FCreate a m, ONew _) | (FCreateRef a m, ONew _) => V ++ [new_value a (given_bytes a m)]
  | (FReceive a ch c, ONew _) => V ++ [mkVF (a_type a) (a_ch a) (a_msgno a) (a_more a) (a_seqno a) (a_ans a) ch 0 true [] c]
  | (FMime i, OMime true z) =>
      match nth_error V i with
      | Some v => upd_nth V i (mkVF (v_type v) (v_ch v) (v_msgno v) (v_more v) (v_seqno v) (v_ans v) (v_chref v) z false
                                    (firstn (Z.to_nat z) (v_body v)) (skipn (Z.to_nat z) (v_body v)))
      | None => V
      end
  | (FHead i (HSet n c), _) =>
      match nth_error V i with
      | Some v => upd_nth V i (with_hsize v (head_add (v_hsize v) (zlen n) (Some c)))
      | None => V
      end
  | (FCopy i, ONew _) =>
      match nth_error V i with
      | Some v => V ++ [mkVF (v_type v) (v_ch v) (v_msgno v) false (v_seqno v) (v_ans v) (v_chref v)
                             (match v_head v with [] => 0 | _ => v_hsize v end) (v_plain v) (v_head v) (v_body v)]
      | None => V
      end
  | (FJoin _ i j, ONew _) =>
      match nth_error V i, nth_error V j with
      | Some a, Some b => V ++ [mkVF (v_type a) (v_ch a) (v_msgno a) (v_more a && v_more b) (v_seqno a) (v_ans a) (v_chref a)
                                     (v_hsize a) (v_plain a) [] (v_body a ++ v_body b)]
      | _, _ => V
      end
  | _ => V
  end.

(** The second frame is the continuation of the first one. *)
Definition continues (a b : vf) : Prop :=
  v_type b = v_type a /\ v_ch b = v_ch a /\ v_msgno b = v_msgno a /\ v_ans b = v_ans a /\ v_more a = true /\
  v_seqno b = (v_seqno a + zlen (v_body a) + v_hsize a) mod two32.

Definition same_fields (a b : vf) : Prop :=
  v_type a = v_type b /\ v_ch a = v_ch b /\ v_msgno a = v_msgno b /\ v_more a = v_more b /\ v_seqno a = v_seqno b /\
  v_ans a = v_ans b /\ zlen (v_body a) = zlen (v_body b).

(** What a call answers. *)
Definition explains (V : list vf) (e : fop * fobs) : Prop :=
  match e with
  | (FCreate _ _, b) | (FCreateRef _ _, b) | (FReceive _ _ _, b) | (FCopy _, b) => b = ONew (length V)
  | (FMime i, OMime ok z) =>
      exists v, nth_error V i = Some v /\
        (ok = true <-> v_type v <> TSEQ /\ exists hs body, entity (v_body v) hs body) /\
        (ok = true -> exists hs body, entity (v_body v) hs body /\ skipn (Z.to_nat z) (v_body v) = body)
  | (FJoin _ i j, b) =>
      exists a b', nth_error V i = Some a /\ nth_error V j = Some b' /\
        ((continues a b' /\ b = ONew (length V)) \/ (~ continues a b' /\ b = ONull))
  | (FEqual i j, OBool x) =>
      exists a b, nth_error V i = Some a /\ nth_error V j = Some b /\
        (x = true -> same_fields a b /\ cstr (v_body a) = cstr (v_body b)) /\
        (v_plain a = true -> v_plain b = true -> v_body a <> [] -> same_fields a b -> cstr (v_body a) = cstr (v_body b) -> x = true)
  | (FPayload i, OBytes l) => exists v, nth_error V i = Some v /\ l = v_body v
  | (FContent i, OBytes l) => exists v, nth_error V i = Some v /\ l = v_head v ++ v_body v
  | (FInfo i, OInfo id t ch msgno more seqno size ans chref) =>
      exists v, nth_error V i = Some v /\ id = 1 + Z.of_nat i /\ t = v_type v /\ ch = v_ch v /\ msgno = v_msgno v /\
        more = v_more v /\ seqno = v_seqno v /\ size = zlen (v_body v) /\ ans = v_ans v /\ chref = v_chref v
  | (FHead _ _, b) | (FRef _, b) | (FUnref _, b) => b = OUnit
  | _ => False
  end.
Fixpoint as_values (V : list vf) (log : list (fop * fobs)) : Prop :=
  match log with
  | [] => True
  | e :: r => explains V e /\ as_values (vnext V e) r
  end.

(** * A message that comes in fragments, joined as they are read *)
Definition frag (a : fargs) (seqno : Z) (more : bool) : fargs :=
  mkFA (a_type a) (a_ch a) (a_msgno a) more seqno 0 (a_ans a) None None.
(** The calls for the fragments after the first one: [acc] is the frame joined so
    far, [n] the number of frames made so far. *)
Fixpoint join_rest (a : fargs) (seqno : Z) (acc n : nat) (cs : list bytes) : list fop * nat :=
  match cs with
  | [] => ([], acc)
  | c :: r =>
      let (os, k) := join_rest a ((seqno + zlen c) mod two32) (S n) (S (S n)) r in
      (FReceive (frag a seqno (match r with [] => false | _ => true end)) 0 c :: FJoin false acc n :: FUnref acc :: FUnref n :: os, k)
  end.
Definition join_all (a : fargs) (c : bytes) (cs : list bytes) : list fop :=
  let (os, k) := join_rest a ((a_seqno a + zlen c) mod two32) 0 1 cs in
  FReceive (frag a (a_seqno a) (match cs with [] => false | _ => true end)) 0 c :: os ++ [FPayload k; FInfo k; FUnref k].

(** * Programs for the witnesses and the examples *)
Definition arg (more : bool) (seqno size : Z) : fargs := mkFA TMSG 1 2 more seqno size 0 None None.
Definition mimed : bytes := [65;58;32;98;13;10;13;10;104;105].   (* "A: b\r\n\r\nhi" *)

Definition w_ext_recv : list fop := [FReceive (arg true 0 0) 0 [104;105]; FReceive (arg false 2 0) 0 [33]; FJoin true 0 1; FUnref 0].
Definition w_ext_mime : list fop := [FReceive (arg true 0 0) 0 mimed; FMime 0; FReceive (arg false 10 0) 0 [33]; FJoin true 0 1].
Definition w_join_mime : list fop := [FReceive (arg true 0 0) 0 mimed; FMime 0; FReceive (arg false 10 0) 0 [33]; FJoin false 0 1; FContent 2].
Definition w_copy_head : list fop := [FReceive (arg false 0 0) 0 mimed; FMime 0; FHead 0 (HSet [66] [97;97;97;97;97;97;97;97]); FCopy 0].
Definition w_content : list fop := [FCreate (arg false 0 2) (Some [104;105]); FHead 0 (HSet [66] [99]); FContent 0].
Definition unsafe_programs : list (list fop) := [w_ext_recv; w_ext_mime; w_join_mime; w_copy_head; w_content].

(** A program over the whole contract. *)
Definition prog : list fop :=
  [FReceive (arg true 5 0) 3 mimed; FMime 0; FReceive (arg false 15 0) 3 [33]; FCopy 0; FContent 2; FJoin false 0 1; FPayload 3; FRef 3;
   FUnref 0; FUnref 3; FEqual 2 3; FCreate (mkFA TRPY 1 2 false 0 3 0 (Some [116]) None) (Some [97;98;99;100]); FHead 4 (HSet [66] [99]);
   FInfo 4; FCopy 4; FUnref 1; FUnref 2; FUnref 3; FUnref 4; FUnref 5].
