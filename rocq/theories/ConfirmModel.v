(** The reply to a start request (src/vortex_channel.c:633-822): how the side
    that asked for a channel decides if it was created, with the cache of replies
    of the context, shared by all its connections.

    A step is a critical section of the mutex of the cache with the code that
    follows it up to the next one.  XML is parsed by AXL: [v_parse] is the
    document, any function of the payload.  AXL frees the value stored when
    another one is stored with the same key, as in HashModel.  Memory is never
    exhausted; the frames freed at 687 and kept at 796 are not followed. *)
From Verif Require Import Base.

(** The root of the document: its name, the attributes [uri] and [code] (as
    converted by vortex_support_strtod and (int)) and its content. *)
Record node := mkN { n_name : bytes; n_uri : option bytes; n_code : option Z; n_content : option bytes }.
Definition is_named (n : node) (name : bytes) : bool := if list_eq_dec Z.eq_dec (n_name n) name then true else false.
Definition PROFILE : bytes := [112; 114; 111; 102; 105; 108; 101].
Definition ERROR : bytes := [101; 114; 114; 111; 114].

Inductive ftype := TRpy | TErr | TOther.
Record rframe := mkF { f_type : ftype; f_payload : bytes }.

(** Keys are compared as C strings (9122). *)
Fixpoint c_str (b : bytes) : bytes := match b with [] => [] | x :: r => if x =? 0 then [] else x :: c_str r end.
Definition same_bytes (a b : bytes) : bool := if list_eq_dec Z.eq_dec a b then true else false.

(** The end of a validation: the frame, the profile requested, the result, the
    piggyback set and the error pushed. *)
Record verdict := mkV { d_frame : rframe; d_asked : bytes; d_ok : bool; d_piggy : option bytes; d_error : option (Z * option bytes) }.

(** A thread that found the entry [id] in the cache (678-692), or that found none. *)
Inductive vphase := VHit (id : Z) (f : rframe) (asked : bytes) | VMiss (f : rframe) (asked : bytes).
Record vst := mkVst {
  v_cache : list (bytes * Z);                (* key and entry *)
  v_content : list (Z * option bytes);       (* entries in memory: profile_content *)
  v_thr : list (Z * vphase);
  v_next : Z;
  v_log : list verdict
}.
Definition v0 : vst := mkVst [] [] [] 0 [].

Definition entry_of (s : vst) (p : bytes) : option Z := option_map snd (find (fun e => same_bytes (fst e) (c_str p)) (v_cache s)).
Definition content_of (s : vst) (id : Z) : option (option bytes) := option_map snd (find (fun e => fst e =? id) (v_content s)).
Definition phase_of (s : vst) (t : Z) : option vphase := option_map snd (find (fun e => fst e =? t) (v_thr s)).
Definition end_thr (l : list (Z * vphase)) (t : Z) : list (Z * vphase) := filter (fun e => negb (fst e =? t)) l.

(** 762-774: the content, if it is not empty. *)
Definition piggy (c : option bytes) : option bytes :=
  match c with Some b => match c_str b with [] => None | x => Some x end | None => None end.

(** 778-805: the entry stored. *)
Definition store (s : vst) (p : bytes) (c : option bytes) : vst :=
  let old := entry_of s p in
  mkVst ((c_str p, v_next s) :: filter (fun e => negb (same_bytes (fst e) (c_str p))) (v_cache s))
        ((v_next s, c) :: match old with Some id => filter (fun e => negb (fst e =? id)) (v_content s) | None => v_content s end)
        (v_thr s) (v_next s + 1) (v_log s).
Definition finish (s : vst) (t : Z) (d : verdict) : vst :=
  mkVst (v_cache s) (v_content s) (end_thr (v_thr s) t) (v_next s) (v_log s ++ [d]).

(** What a document says once it was not found in the cache (697-760): [None],
    the request is refused without storing anything. *)
Definition judge (parse : bytes -> option node) (f : rframe) (asked : bytes) : option (bool * option bytes) * option (Z * option bytes) :=
  match parse (f_payload f) with
  | None => (None, None)
  | Some n =>
      match f_type f with
      | TRpy =>
          if is_named n PROFILE then
            match n_uri n with
            | Some u => if same_bytes u asked then (Some (true, n_content n), None) else (Some (false, None), None)
            | None => (Some (false, None), None)
            end
          else (None, None)
      | _ =>
          (* 721-732 *)
          (None, if is_named n ERROR then Some (match n_code n with Some c => c | None => 0 end, n_content n) else None)
      end
  end.

(** [VStart t f asked]: thread [t] calls __vortex_channel_validate_start_reply;
    [VNext t]: it goes on to the end. *)
Inductive vev := VStart (t : Z) (f : rframe) (asked : bytes) | VNext (t : Z).
Definition vstep (parse : bytes -> option node) (s : vst) (e : vev) : outcome vst :=
  match e with
  | VStart t f asked =>
      match phase_of s t with
      | Some _ => Ok s
      | None =>
          let p := match entry_of s (f_payload f) with Some id => VHit id f asked | None => VMiss f asked end in
          Ok (mkVst (v_cache s) (v_content s) ((t, p) :: v_thr s) (v_next s) (v_log s))
      end
  | VNext t =>
      match phase_of s t with
      | None => Ok s
      | Some (VHit id f asked) =>
          match content_of s id with
          | None => UB
          | Some c => Ok (finish s t (mkV f asked true (piggy c) None))
          end
      | Some (VMiss f asked) =>
          match judge parse f asked with
          | (None, err) => Ok (finish s t (mkV f asked false None err))
          | (Some (ok, c), err) => Ok (finish (store s (f_payload f) c) t (mkV f asked ok (if ok then piggy c else None) err))
          end
      end
  end.
Fixpoint vrun (parse : bytes -> option node) (s : vst) (es : list vev) : outcome vst :=
  match es with [] => Ok s | e :: k => let! s' := vstep parse s e in vrun parse s' k end.
