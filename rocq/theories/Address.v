(** Model of network/address/address-little-endian.h: [Address<bits>].

    The data of an address, the union [{uint8_t b_[DB]; Value v_[NV];}]
    (address-little-endian.h:1584-1588), is the list of the values [v_], least significant
    first; the host is little-endian (static_assert at 154).  Integers of the host have the
    usual LP64 sizes, conversions to signed types and [>>] of negative integers behave as
    in two's complement. *)
From Verif Require Import Base BufferIter.

Notation addr := (list N).

(** [V_BITS], 42-45, 58, 83, 108. *)
Definition vbits (bits : nat) : nat := if (bits + 31) / 32 =? 2 then 64 else 32.
(** [NUM_VALUES], 66, 91, 116. *)
Definition nv (bits : nat) : nat :=
  if (bits + 31) / 32 =? 2 then (bits + 63) / 64 else (bits + 31) / 32.
(** [NUM_BYTES], 61. *)
Definition nb (bits : nat) : nat := (bits + 7) / 8.
(** [sizeof (Value)]. *)
Definition vbytes (bits : nat) : nat := vbits bits / 8.
(** [2^V_BITS]; [V_MASK] is one less, 68. *)
Definition vmod (bits : nat) : N := (2 ^ N.of_nat (vbits bits))%N.
Definition v_mask (bits : nat) : N := (vmod bits - 1)%N.
(** [MSV_MASK], 70-71. *)
Definition msv_mask (bits : nat) : N :=
  N.shiftr (v_mask bits) (N.of_nat (vbits bits * nv bits - bits)).
(** [value_multiplicity_t], 187-189. *)
Definition single (bits : nat) : bool := nv bits =? 1.

(** [data_.v_[i]] for an [i] that is below [NV]. *)
Definition lim (a : addr) (i : nat) : N := nth i a 0%N.
(** [data_.v_[NV-1] &= MSV_MASK]. *)
Definition mask_msv (bits : nat) (a : addr) : addr :=
  upd a (nv bits - 1) (N.land (lim a (nv bits - 1)) (msv_mask bits)).

(** The other member of the union: the values as bytes, and back. *)
Definition as_bytes (bits : nat) (a : addr) : list N := flat_map (le_bytes (vbytes bits)) a.
Fixpoint limbs_of (k n : nat) (bs : list N) : addr :=
  match n with
  | O => []
  | S m => of_le_bytes (firstn k bs) :: limbs_of k m (skipn k bs)
  end.
(** [data_.b_[i + j] = bs[j]] for all [j]. *)
Definition poke (bits : nat) (a : addr) (i : nat) (bs : list N) : addr :=
  let b := as_bytes bits a in
  limbs_of (vbytes bits) (nv bits) (firstn i b ++ bs ++ skipn (i + length bs) b).

(** [Assign0], 669-675. *)
Definition assign0 (bits : nat) : addr := repeat 0%N (nv bits).

(** [AssignBytes] little-endian, 679-690 and 707-718. *)
Definition assign_bytes_le (bits : nat) (bs : list N) : addr :=
  let m := if length bs <=? nb bits then length bs else nb bits in
  mask_msv bits (poke bits (assign0 bits) 0 (firstn m bs)).
(** [AssignBytes] big-endian, 692-703 and 720-731: [b_[i] = bytes[size-1-i]]. *)
Definition assign_bytes_be (bits : nat) (bs : list N) : addr :=
  let m := if length bs <=? nb bits then length bs else nb bits in
  mask_msv bits (poke bits (assign0 bits) 0 (map (fun i => nth (length bs - 1 - i) bs 0%N) (seq 0 m))).

(** [AssignValue] of an unsigned integer of [M] bytes, 745-751. *)
Definition assign_unsigned (bits M : nat) (v : N) : addr := assign_bytes_le bits (le_bytes M v).
(** [AssignValue] of a signed integer of [M] bytes, 753-769. *)
Definition assign_signed (bits M : nat) (v : Z) : addr :=
  let a := assign_bytes_le bits (le_bytes M (Z.to_N (v mod 2 ^ (8 * Z.of_nat M)))) in
  if (M <? nb bits) && (v <? 0)%Z
  then mask_msv bits (poke bits a M (repeat 255%N (nb bits - M)))
  else a.

(** [AssignValues] of values of [sz] bytes each, 773-780 and 803-808. *)
Definition assign_values_le (bits sz : nat) (vs : list N) : addr :=
  assign_bytes_le bits (flat_map (le_bytes sz) vs).
(** [NT], 787-788. *)
Definition num_t (bits sz : nat) : nat := (bits + 8 * sz - 1) / (8 * sz).
(** [AssignValues] big-endian of an array, 782-801. *)
Definition assign_values_be (bits sz : nat) (vs : list N) : addr :=
  let k := if length vs <? num_t bits sz then length vs else num_t bits sz in
  assign_bytes_le bits (flat_map (le_bytes sz) (map (fun i => nth (length vs - 1 - i) vs 0%N) (seq 0 k))).
(** [AssignValues] big-endian of a sequence, 810-836. *)
Definition assign_seq_be (bits sz : nat) (vs : list N) : addr :=
  assign_bytes_le bits (flat_map (le_bytes sz)
    (map (fun i => if i <? length vs then nth (length vs - 1 - i) vs 0%N else 0%N) (seq 0 (num_t bits sz)))).

(** [Equal], 950-967. *)
Fixpoint equal_from (l r : addr) : bool :=
  match l, r with
  | x :: l', y :: r' => if negb (x =? y)%N then false else equal_from l' r'
  | _, _ => true
  end.
Definition equal (bits : nat) (a b : addr) : bool :=
  if single bits then (lim a 0 =? lim b 0)%N else equal_from a b.

(** [LessThan], 969-992. *)
Fixpoint less_than_from (i : nat) (a b : addr) : bool :=
  match i with
  | O => false
  | S i => if (lim b i <? lim a i)%N then false
           else if (lim a i <? lim b i)%N then true
           else less_than_from i a b
  end.
Definition less_than (bits : nat) (a b : addr) : bool :=
  if single bits then (lim a 0 <? lim b 0)%N else less_than_from (nv bits) a b.
(** [LessEqual], 994-1017. *)
Fixpoint less_equal_from (i : nat) (a b : addr) : bool :=
  match i with
  | O => true
  | S i => if (lim a i <? lim b i)%N then true
           else if (lim b i <? lim a i)%N then false
           else less_equal_from i a b
  end.
Definition less_equal (bits : nat) (a b : addr) : bool :=
  if single bits then (lim a 0 <=? lim b 0)%N else less_equal_from (nv bits) a b.
(** The operators, 440-468. *)
Definition op_eq bits a b := equal bits a b.
Definition op_ne bits a b := negb (equal bits a b).
Definition op_lt bits a b := less_than bits a b.
Definition op_le bits a b := less_equal bits a b.
Definition op_gt bits a b := negb (less_equal bits a b).
Definition op_ge bits a b := negb (less_than bits a b).

(** [Increment], 1021-1041. *)
Fixpoint inc_loop (m : N) (l : addr) : addr :=
  match l with
  | [] => []
  | v :: r => let v' := ((v + 1) mod m)%N in
              if negb (v' <? 1)%N then v' :: r else v' :: inc_loop m r
  end.
Definition increment (bits : nat) (a : addr) : addr :=
  if single bits then mask_msv bits (upd a 0 ((lim a 0 + 1) mod vmod bits)%N)
  else mask_msv bits (inc_loop (vmod bits) a).
(** [Decrement], 1043-1063. *)
Fixpoint dec_loop (m : N) (l : addr) : addr :=
  match l with
  | [] => []
  | v :: r => let v' := ((v + (m - 1)) mod m)%N in
              if (v' <? m - 1)%N then v' :: r else v' :: dec_loop m r
  end.
Definition decrement (bits : nat) (a : addr) : addr :=
  if single bits then mask_msv bits (upd a 0 ((lim a 0 + (vmod bits - 1)) mod vmod bits)%N)
  else mask_msv bits (dec_loop (vmod bits) a).

(** An integer converted to an unsigned type of [2^k] values. *)
Definition to_unsigned (k : N) (n : Z) : N := Z.to_N (n mod 2 ^ Z.of_N k).

(** The loops 1095-1101 and 1136-1142: [carry] is a [DoubleValue] of 64 bits. *)
Fixpoint add_loop (ex carry : N) (l : addr) : addr :=
  match l with
  | [] => []
  | v :: r => let carry := N.shiftr carry 32 in
              let carry := w64 (carry + ex) in
              let carry := w64 (carry + v) in
              N.land carry (2 ^ 32 - 1) :: add_loop ex carry r
  end.
(** The body of [Plus] and [Minus] for several values, [lo], [hi] and [ex] being what is
    added: 1085-1101 and 1126-1142. *)
Definition add_values (lo hi ex : N) (a : addr) : addr :=
  match a with
  | v0 :: v1 :: r =>
      let carry := lo in
      let carry := w64 (carry + v0) in
      let v0' := N.land carry (2 ^ 32 - 1) in
      let carry := N.shiftr carry 32 in
      let carry := w64 (carry + hi) in
      let carry := w64 (carry + v1) in
      let v1' := N.land carry (2 ^ 32 - 1) in
      v0' :: v1' :: add_loop ex carry r
  | _ => a
  end.
(** [Plus], 1066-1104. *)
Definition plus (bits : nat) (n : Z) (a : addr) : addr :=
  if single bits
  then mask_msv bits (upd a 0 ((lim a 0 + to_unsigned (N.of_nat (vbits bits)) n) mod vmod bits)%N)
  else mask_msv bits
         (add_values (to_unsigned 32 n) (to_unsigned 32 (Z.shiftr n 32))
                     (if (0 <=? n)%Z then 0%N else (2 ^ 32 - 1)%N) a).
(** [Minus], 1106-1145.  The negation of the least integer overflows. *)
Definition minus (bits : nat) (n : Z) (a : addr) : outcome addr :=
  if (n =? - 2 ^ 63)%Z then UB
  else if single bits
  then Done (mask_msv bits (upd a 0 ((lim a 0 + to_unsigned (N.of_nat (vbits bits)) (- n)) mod vmod bits)%N))
  else
    let neg := to_unsigned 64 (- n) in
    Done (mask_msv bits
            (add_values (N.land neg (2 ^ 32 - 1)) (N.land (N.shiftr neg 32) (2 ^ 32 - 1))
                        (if (n <=? 0)%Z then 0%N else (2 ^ 32 - 1)%N) a)).

(** [MultiplyPlus], 1185-1203: the inner loop 1192-1198 ([cnt] iterations left), which
    reads and writes [data_.v_[i+j]]. *)
Fixpoint mul_loop (cnt i j : nat) (x carry : N) (m a : addr) : outcome addr :=
  match cnt with
  | O => Done a
  | S cnt =>
      let carry := w64 (carry + w64 (x * lim m j)) in
      match nth_error a (i + j) with
      | None => UB
      | Some v =>
          let carry := w64 (carry + v) in
          mul_loop cnt i (S j) x (N.shiftr carry 32) m (upd a (i + j) (N.land carry (2 ^ 32 - 1)))
      end
  end.
Definition multiply_plus (bits : nat) (m : addr) (n : N) (a : addr) : outcome addr :=
  let! a1 := mul_loop (nv bits) 0 0 (N.land n (2 ^ 32 - 1)) 0 m a in
  let n1 := N.shiftr n 32 in
  let! a2 := mul_loop (nv bits) 1 0 (N.land n1 (2 ^ 32 - 1)) 0 m a1 in
  Done (mask_msv bits a2).
(** [MultiplyAssign], 1149-1166. *)
Definition multiply_assign (bits : nat) (n : N) (a : addr) : outcome addr :=
  if single bits
  then Done (mask_msv bits (upd a 0 ((lim a 0 * (n mod vmod bits)) mod vmod bits)%N))
  else if (n =? 0)%N then Done (assign0 bits)
  else if (1 <? n)%N then multiply_plus bits a (n - 1) a
  else Done a.
(** [Multiply], 1168-1181; the product in 1171 has 64 bits. *)
Definition multiply (bits : nat) (n : N) (a : addr) : outcome addr :=
  if single bits
  then Done (mask_msv bits (upd (assign0 bits) 0 (w64 (lim a 0 * n) mod vmod bits)%N))
  else multiply_plus bits a n (assign0 bits).

(** [BitwiseNot], 1213-1221. *)
Definition bitwise_not (bits : nat) (a : addr) : addr :=
  mask_msv bits (map (fun v => (v_mask bits - v)%N) a).
(** [Negate], 1207-1211. *)
Definition negate (bits : nat) (a : addr) : addr := increment bits (bitwise_not bits a).
(** [BitwiseAnd], [BitwiseOr], [BitwiseXor], 1223-1245. *)
Fixpoint map2 (f : N -> N -> N) (a b : addr) : addr :=
  match a, b with x :: a', y :: b' => f x y :: map2 f a' b' | _, _ => [] end.
Definition bitwise_and (a b : addr) : addr := map2 N.land a b.
Definition bitwise_or (a b : addr) : addr := map2 N.lor a b.
Definition bitwise_xor (a b : addr) : addr := map2 N.lxor a b.

(** A shift of a [uint32_t]: undefined unless the amount is below 32. *)
Definition shl32 (v : N) (n : nat) : outcome N :=
  if n <? 32 then Done (w32 (N.shiftl v (N.of_nat n))) else UB.
Definition shr32 (v : N) (n : nat) : outcome N :=
  if n <? 32 then Done (N.shiftr v (N.of_nat n)) else UB.
(** [LeftShift], the loop 1285-1290. *)
Fixpoint lsh_loop (i z s c : nat) (a : addr) : outcome addr :=
  match i with
  | O => Done a
  | S i' =>
      if z <? i then
        let! x := shl32 (lim a (i - z)) s in
        let! y := shr32 (lim a (i - z - 1)) c in
        lsh_loop i' z s c (upd a i (N.lor (N.land x (2 ^ 32 - 1)) (N.land y (2 ^ 32 - 1))))
      else Done a
  end.
(** The loop 1293-1297. *)
Fixpoint zero_below (i : nat) (a : addr) : addr :=
  match i with O => a | S i => zero_below i (upd a i 0%N) end.
(** [LeftShift], 1247-1302. *)
Definition left_shift (bits n : nat) (a : addr) : outcome addr :=
  if single bits then
    if n <? vbits bits
    then Done (mask_msv bits (upd a 0 (N.shiftl (lim a 0) (N.of_nat n) mod vmod bits)%N))
    else Done (upd a 0 0%N)
  else if 0 <? n then
    let z := n / 32 in
    if nv bits <=? z then Done (assign0 bits)
    else
      let s := n mod 32 in
      let c := 32 - s in
      let! a1 := lsh_loop (nv bits - 1) z s c a in
      let! x := shl32 (lim a1 0) s in
      Done (mask_msv bits (zero_below z (upd a1 z (N.land x (2 ^ 32 - 1)))))
  else Done a.

(** [RightShift], the loop 1340-1345, [cnt] iterations left. *)
Fixpoint rsh_loop (cnt i z s c : nat) (a : addr) : outcome addr :=
  match cnt with
  | O => Done a
  | S cnt =>
      let! x := shr32 (lim a (i + z)) s in
      let! y := shl32 (lim a (i + z + 1)) c in
      rsh_loop cnt (S i) z s c (upd a i (N.lor (N.land x (2 ^ 32 - 1)) (N.land y (2 ^ 32 - 1))))
  end.
(** The loop 1348-1351. *)
Fixpoint zero_from (cnt i : nat) (a : addr) : addr :=
  match cnt with O => a | S cnt => zero_from cnt (S i) (upd a i 0%N) end.
(** [RightShift], 1304-1354. *)
Definition right_shift (bits n : nat) (a : addr) : outcome addr :=
  if single bits then
    if vbits bits <=? n then Done (upd a 0 0%N)
    else Done (upd a 0 (N.shiftr (lim a 0) (N.of_nat n)))
  else if 0 <? n then
    let z := n / 32 in
    if nv bits <=? z then Done (assign0 bits)
    else
      let s := n mod 32 in
      let c := 32 - s in
      let k := nv bits - 1 - z in
      let! a1 := rsh_loop k 0 z s c a in
      let! x := shr32 (lim a1 (nv bits - 1)) s in
      Done (zero_from (nv bits - S k) (S k) (upd a1 k (N.land x (2 ^ 32 - 1))))
  else Done a.

(** [IsZero], 1358-1381. *)
Fixpoint is_zero_from (l : addr) : bool :=
  match l with [] => true | v :: r => if negb (v =? 0)%N then false else is_zero_from r end.
Definition is_zero (bits : nat) (a : addr) : bool :=
  if single bits then (lim a 0 =? 0)%N else is_zero_from a.
(** Conversion to [bool], 647-650. *)
Definition to_bool (bits : nat) (a : addr) : bool := is_zero bits a.
(** [operator!], 662-665. *)
Definition op_not (bits : nat) (a : addr) : bool := is_zero bits a.

(** A [uint64_t] converted to [int64_t]. *)
Definition to_int64 (x : N) : Z :=
  if (x <? 2 ^ 63)%N then Z.of_N x else (Z.of_N x - 2 ^ 64)%Z.
Definition int64_max : Z := (2 ^ 63 - 1)%Z.
Definition int64_min : Z := (- 2 ^ 63)%Z.
(** The loops 1424-1431 and 1444-1451: is there an [i] with [2 < i < NV] whose value is
    not [ext]?  [i] is the value of the counter before [--i]. *)
Fixpoint other_than (i : nat) (ext : N) (a : addr) : bool :=
  match i with
  | O => false
  | S i => if 2 <? i then (if negb (lim a i =? ext)%N then true else other_than i ext a) else false
  end.
(** [ToInt64], 1405-1455. *)
Definition addr_to_int64 (bits : nat) (a : addr) : Z :=
  let d := to_int64 (lim a 0 + 2 ^ 32 * lim a 1)%N in
  if (lim a (nv bits - 1) <=? (2 ^ 32 - 1) / 2)%N then
    if (d <? 0)%Z then int64_max
    else if other_than (nv bits) 0 a then int64_max else d
  else
    if (0 <=? d)%Z then int64_min
    else if other_than (nv bits) (2 ^ 32 - 1) a then int64_min else d.
(** [Difference], 1385-1403: the loop 1394-1400. *)
Fixpoint sub_loop (borrow : N) (l r : addr) : addr :=
  match l, r with
  | v :: l', u :: r' =>
      let borrow := w64 (borrow + u) in
      let x := wsub 64 v borrow in
      N.land x (2 ^ 32 - 1) :: sub_loop (if (v <? borrow)%N then 1 else 0)%N l' r'
  | _, _ => []
  end.
(** In 1387 the subtraction is one of [Value]s, which is then converted. *)
Definition difference (bits : nat) (a b : addr) : Z :=
  if single bits then
    let d := ((lim a 0 + (vmod bits - lim b 0)) mod vmod bits)%N in
    if vbits bits =? 64 then to_int64 d else Z.of_N d
  else addr_to_int64 bits (sub_loop 0 a b).

(** [Mask], 1507-1511, a [long] having [M] bytes, and [Zero], 1501-1505. *)
Definition mask_addr (bits M : nat) : addr := assign_signed bits M (-1).
Definition zero_addr (bits : nat) : addr := assign0 bits.

(** [ToString], 1515-1526: the hexadecimal digits. *)
Definition to_string (bits : nat) (a : addr) : list N :=
  flat_map (fun b => [b / 16; b mod 16]%N) (rev (firstn (nb bits) (as_bytes bits a))).

(** [Write], [WriteL], [WriteB], 1530-1546. *)
Definition write (bits : nat) (o : order) (a : addr) (mem : list N) (it : biter) : outcome (list N * biter) :=
  write_bytes LittleEndian o (firstn (nb bits) (as_bytes bits a)) mem it.
(** [Read], [ReadL], [ReadB], 1548-1567. *)
Definition read (bits : nat) (o : order) (a : addr) (mem : list N) (it : biter) : outcome (addr * biter) :=
  let! (bs, it') := read_bytes LittleEndian o (nb bits) mem it in
  Done (mask_msv bits (poke bits a 0 bs), it').

(** What a program does with an address, the other operands being addresses too. *)
Inductive aop :=
| AZero | ABytes (le : bool) (bs : list N) | AUnsigned (M : nat) (v : N) | ASigned (M : nat) (v : Z)
| AValues (le : bool) (sz : nat) (vs : list N)
| AInc | ADec | AAdd (n : Z) | ASub (n : Z) | AMul (n : N) | AMulNew (n : N)
| ANot | ANeg | AAnd (b : addr) | AOr (b : addr) | AXor (b : addr)
| AShl (n : nat) | AShr (n : nat) | ARead (o : order) (mem : list N) (it : biter).
Definition apply (bits : nat) (o : aop) (a : addr) : outcome addr :=
  match o with
  | AZero => Done (assign0 bits)
  | ABytes true bs => Done (assign_bytes_le bits bs)
  | ABytes false bs => Done (assign_bytes_be bits bs)
  | AUnsigned M v => Done (assign_unsigned bits M v)
  | ASigned M v => Done (assign_signed bits M v)
  | AValues true sz vs => Done (assign_values_le bits sz vs)
  | AValues false sz vs => Done (assign_values_be bits sz vs)
  | AInc => Done (increment bits a)
  | ADec => Done (decrement bits a)
  | AAdd n => Done (plus bits n a)
  | ASub n => minus bits n a
  | AMul n => multiply_assign bits n a
  | AMulNew n => multiply bits n a
  | ANot => Done (bitwise_not bits a)
  | ANeg => Done (negate bits a)
  | AAnd b => Done (bitwise_and a b)
  | AOr b => Done (bitwise_or a b)
  | AXor b => Done (bitwise_xor a b)
  | AShl n => left_shift bits n a
  | AShr n => right_shift bits n a
  | ARead o mem it => let! (a', _) := read bits o a mem it in Done a'
  end.
Fixpoint apply_all (bits : nat) (l : list aop) (a : addr) : outcome addr :=
  match l with
  | [] => Done a
  | o :: r => let! a' := apply bits o a in apply_all bits r a'
  end.
