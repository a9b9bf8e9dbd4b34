(** Property C66: byte order conversions. *)
From Verif Require Import Base Endian EndianProofs.
Local Open Scope N_scope.

(** C66.  Reordering reverses the bytes, stays in range, and undoes itself. *)
Theorem C66_reorder_reverses_bytes :
  forall w v, v < 256 ^ N.of_nat (width_bytes w) ->
    reorder w v < 256 ^ N.of_nat (width_bytes w) /\
    reorder w (reorder w v) = v /\
    le_bytes (width_bytes w) (reorder w v) = rev (le_bytes (width_bytes w) v).
Proof. exact reorder_facts. Qed.
Print Assumptions C66_reorder_reverses_bytes.

Example C66_reorder_reverses_bytes_ex :
  0x0102030405060708 < 256 ^ N.of_nat (width_bytes W64) /\
  reorder W64 0x0102030405060708 = 0x0807060504030201.
Proof. split; vm_compute; reflexivity. Qed.

(** C66.  The conversions between native, little and big endian undo each other
    and compose, on hosts of either byte order. *)
Theorem C66_conversions_invert :
  forall host w v, v < 256 ^ N.of_nat (width_bytes w) ->
    little_to_native host w (native_to_little host w v) = v /\
    native_to_little host w (little_to_native host w v) = v /\
    big_to_native host w (native_to_big host w v) = v /\
    native_to_big host w (big_to_native host w v) = v /\
    little_to_big w (big_to_little w v) = v /\ big_to_little w (little_to_big w v) = v /\
    little_to_big w (native_to_little host w v) = native_to_big host w v /\
    big_to_little w (native_to_big host w v) = native_to_little host w v.
Proof. exact conversions. Qed.
Print Assumptions C66_conversions_invert.

Example C66_conversions_invert_ex :
  0xabcd < 256 ^ N.of_nat (width_bytes W16) /\ native_to_big LittleEndian W16 0xabcd = 0xcdab.
Proof. split; vm_compute; reflexivity. Qed.

(** C66.  The memory image of a converted value is the documented byte order. *)
Theorem C66_converted_memory_image :
  forall host w v, v < 256 ^ N.of_nat (width_bytes w) ->
    mem_bytes host (width_bytes w) (native_to_little host w v) = le_bytes (width_bytes w) v /\
    mem_bytes host (width_bytes w) (native_to_big host w v) = rev (le_bytes (width_bytes w) v).
Proof. exact converted_image. Qed.
Print Assumptions C66_converted_memory_image.

Example C66_converted_memory_image_ex :
  mem_bytes LittleEndian 4 (native_to_big LittleEndian W32 0x01020304) = [1; 2; 3; 4].
Proof. reflexivity. Qed.
