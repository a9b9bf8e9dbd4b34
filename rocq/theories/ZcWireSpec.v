(** Specification vocabulary for messages in zero-compressed buffers and packets over them. *)
From Verif Require Import Base BufferIter ZcIter Message MessageSpec Buffer ZcBuffer ZcPacket ZcPacketSpec ZcFillSpec ZcWire.
From Verif Require Import WireSpec.

(** Buffers end below half of the address space. *)
Definition zsmall (w : zworld) : Prop := forall k z, zvar w k = Some z -> (N.of_nat (z_end z) < 2 ^ 63)%N.

(** Layers of a protocol stack: each puts a message before or behind a packet. *)
Inductive mlayer := MHead (m : list (order * field)) | MTail (m : list (order * field)).
Definition content (y : mlayer) : list (order * field) := match y with MHead m | MTail m => m end.
Definition mwrap1 (host : endian) (s : list N) (y : mlayer) : list N :=
  match y with MHead m => message host m ++ s | MTail m => s ++ message host m end.
Definition mwrap (host : endian) (ls : list mlayer) (s : list N) : list N := fold_left (mwrap1 host) ls s.

(** A sender makes room for the message of a layer and writes it into the buffer that it gets,
    layer by layer. *)
Definition make_room (host : endian) (i : nat) (y : mlayer) : zpop :=
  match y with
  | MHead m => PAddHeader i (length (message host m))
  | MTail m => PAddTrailer i (length (message host m))
  end.
Inductive sends (junk : nat -> nat -> N) (host : endian) (i : nat) : list mlayer -> zpworld -> zpworld -> Prop :=
| sends_none w : sends junk host i [] w w
| sends_layer y ls w w1 w2 it w3 :
    zpstep junk (make_room host i y) w = Done w1 -> zsmall (zp_buf w1) ->
    zp_write host 0 (content y) (zp_got w1) w1 = Done (w2, it) ->
    sends junk host i ls w2 w3 -> sends junk host i (y :: ls) w w3.

(** A receiver gets the buffer of the packet, reads a message at its start or before its end,
    and removes it, layer by layer.  [place y size] is where: the receiver knows the sizes of
    the messages, as they are those of the variables that are read to. *)
Inductive slayer := SHead (s : list (order * shape)) | STail (s : list (order * shape)).
Definition shapes (y : slayer) : list (order * shape) := match y with SHead s | STail s => s end.
Definition place (y : slayer) (size : nat) : nat := match y with SHead _ => 0 | STail s => size - shapes_size s end.
Definition remove (i : nat) (y : slayer) : zpop :=
  match y with SHead s => PRemHeader i (shapes_size s) | STail s => PRemTrailer i (shapes_size s) end.
Inductive receives (junk : nat -> nat -> N) (host : endian) (i : nat) : list slayer -> zpworld -> list (list field) -> zpworld -> Prop :=
| receives_none w : receives junk host i [] w [] w
| receives_layer y ls w bs w1 v it w2 vs w3 :
    zpacket_of w i = Some bs -> zpstep junk (PGetBuffer i) w = Done w1 -> zsmall (zp_buf w1) ->
    zp_read host (place y (length bs)) (shapes y) (zp_got w1) w1 = Done (v, it) ->
    zpstep junk (remove i y) w1 = Done w2 ->
    receives junk host i ls w2 vs w3 -> receives junk host i (y :: ls) w (v :: vs) w3.

(** The variables suit the messages. *)
Definition suits (y : mlayer) (t : slayer) : Prop :=
  match y, t with
  | MHead m, SHead s | MTail m, STail s => readable_as m s
  | _, _ => False
  end.
