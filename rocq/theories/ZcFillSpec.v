(** Specification of filling headers and trailers of zero-compressed packets. *)
From Verif Require Import Base Buffer BufferSpec ZcIter ZcBuffer ZcBufferSpec ZcPacket ZcPacketSpec.

(** The buffer that the last statement returned. *)
Definition zp_got (w : zpworld) : nat := length (zw_bufs (zp_buf w)) - 1.
(** Writing through iterators into buffer [f]: offsets and bytes. *)
Definition zp_writes (f : nat) (ws : list (nat * list N)) : list zpop :=
  map (fun u => POnBuf (ZBase (Write f (fst u) (snd u)))) ws.
(** [AddHeader(n)], [AddTrailer(n)] of packet [i], and writing into the buffer that is
    returned. *)
Definition zp_filled junk (o : zpop) (ws : list (nat * list N)) (w : zpworld) : outcome zpworld :=
  let! w1 := zpstep junk o w in zpsteps junk (zp_writes (zp_got w1) ws) w1.
(** What is written is inside [n] bytes. *)
Definition inside (n : nat) (ws : list (nat * list N)) : Prop := Forall (fun u => fst u + length (snd u) <= n) ws.

(** The states that programs reach whose statements are sensible ([zp_sensible]), and which
    write into buffers that are returned for headers and trailers before doing anything else. *)
Inductive zp_reached (junk : nat -> nat -> N) : zpworld -> Prop :=
| reached_start : zp_reached junk zpinit
| reached_step w o w' : zp_reached junk w -> zp_no_deep o -> zp_sensible o w ->
    zpstep junk o w = Done w' -> zp_reached junk w'
| reached_header w i n ws w' : zp_reached junk w -> zp_var w i <> None ->
    zp_filled junk (PAddHeader i n) ws w = Done w' -> zp_reached junk w'
| reached_trailer w i n ws w' : zp_reached junk w -> zp_var w i <> None ->
    zp_filled junk (PAddTrailer i n) ws w = Done w' -> zp_reached junk w'.

(** Layers of a protocol stack: each puts bytes before or behind a packet, field by field. *)
Inductive layer := Head (fields : list (list N)) | Tail (fields : list (list N)).
Definition wrap1 (s : list N) (y : layer) : list N :=
  match y with Head fs => concat fs ++ s | Tail fs => s ++ concat fs end.
Definition wrap (ls : list layer) (s : list N) : list N := fold_left wrap1 ls s.
(** Where the fields go. *)
Fixpoint placed (off : nat) (fs : list (list N)) : list (nat * list N) :=
  match fs with [] => [] | f :: r => (off, f) :: placed (off + length f) r end.
(** Making room for a layer and writing its fields in the given order. *)
Definition zp_layer junk (i : nat) (y : layer) (w : zpworld) : outcome zpworld :=
  match y with
  | Head fs => zp_filled junk (PAddHeader i (length (concat fs))) (placed 0 fs) w
  | Tail fs => zp_filled junk (PAddTrailer i (length (concat fs))) (placed 0 fs) w
  end.
Fixpoint zp_layers junk (i : nat) (ls : list layer) (w : zpworld) : outcome zpworld :=
  match ls with [] => Done w | y :: r => let! w1 := zp_layer junk i y w in zp_layers junk i r w1 end.
(** Taking a layer off. *)
Definition zp_strip (i : nat) (y : layer) : zpop :=
  match y with Head fs => PRemHeader i (length (concat fs)) | Tail fs => PRemTrailer i (length (concat fs)) end.
