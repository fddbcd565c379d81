(* src/ops/indexing.rs: packbits, unpackbits; the axis handling of
   src/python/indexing.rs:689-730.  Bytes are integers 0..255. *)
From Verif Require Import Base Arr_Spec Arr_Model Copy_Model Idx_Model Red_Model.
Local Open Scope nat_scope.

Section Pack.
Context {V : Type}.
Variable truthy : V -> bool.    (* is_truthy of the dtype *)

(* indexing.rs:980-986, 1047-1052: byte |= val << (7 - bit) or << bit *)
Definition or_bit (big : bool) (byte : Z) (val : bool) (bit : nat) : Z :=
  Z.lor byte (Z.shiftl (Z.b2z val) (Z.of_nat (if big then 7 - bit else bit))).

(* indexing.rs:973-1000: the bytes written, in order *)
Fixpoint pack_loop (big : bool) (vals : list bool) (byte : Z) (bit_pos : nat) : list Z :=
  match vals with
  | [] => if 0 <? bit_pos then [byte] else []
  | v :: vals' =>
      let byte' := or_bit big byte v bit_pos in
      let p := S bit_pos in
      if p =? 8 then byte' :: pack_loop big vals' 0%Z 0 else pack_loop big vals' byte' p
  end.
(* indexing.rs:958-1003 packbits_flat *)
Definition packbits_flat (big : bool) (buf : list V) (a : arr) : res (list nat * list Z) :=
  let out_size := (size a + 7) / 8 in
  if out_size =? 0 then Ok ([0], [])
  else bind (mapM (read buf a) (iter_offsets a)) (fun vs =>
       let ws := pack_loop big (map truthy vs) 0%Z 0 in
       bind (write_all (combine (seq 0 (length ws)) ws) (repeat 0%Z out_size)) (fun out => Ok ([out_size], out))).

(* indexing.rs:1034-1056: one byte of packbits_axis *)
Definition pack_byte (big : bool) (buf : list V) (a : arr) (axis n : nat) (oi : list nat) : res Z :=
  let start := nth axis oi 0 * 8 in
  let stop := Nat.min (start + 8) n in
  bind (mapM (fun bit => read buf a (byte_offset_for a (upd oi axis bit))) (seq start (stop - start))) (fun vs =>
  Ok (fold_left (fun byte p => or_bit big byte (truthy (snd p)) (fst p)) (combine (seq 0 (length vs)) vs) 0%Z)).
(* indexing.rs:1005-1075 packbits_axis *)
Definition packbits_axis (big : bool) (buf : list V) (a : arr) (axis : nat) : res (list nat * list Z) :=
  if ndim a <=? axis then packbits_flat big buf a
  else
    let n := nth axis (a_shape a) 0 in
    let osh := upd (a_shape a) axis ((n + 7) / 8) in
    if prod osh =? 0 then Ok (osh, [])
    else bind (mapM (pack_byte big buf a axis n) (odometer (prod osh) (repeat 0 (ndim a)) osh)) (fun out => Ok (osh, out)).
End Pack.

(* indexing.rs:1110-1114, 1172-1176 *)
Definition bit_at (big : bool) (byte : Z) (bit : nat) : Z :=
  Z.land (Z.shiftr byte (Z.of_nat (if big then 7 - bit else bit))) 1.
(* indexing.rs:1102-1119: the inner loop leaves off at out_size *)
Fixpoint unpack_bits (big : bool) (byte : Z) (bits : list nat) (out_idx out_size : nat) : list Z :=
  match bits with
  | [] => []
  | b :: bits' => if out_size <=? out_idx then [] else bit_at big byte b :: unpack_bits big byte bits' (S out_idx) out_size
  end.
Fixpoint unpack_loop (big : bool) (bytes : list Z) (out_idx out_size : nat) : list Z :=
  match bytes with
  | [] => []
  | b :: bytes' =>
      let w := unpack_bits big b (seq 0 8) out_idx out_size in
      w ++ unpack_loop big bytes' (out_idx + length w) out_size
  end.
(* indexing.rs:1087-1124 unpackbits_flat (uint8 arrays) *)
Definition unpackbits_flat (big : bool) (buf : list Z) (a : arr) (count : option nat) : res (list nat * list Z) :=
  let full := size a * 8 in
  let out_size := Nat.min (match count with Some c => c | None => full end) full in
  if out_size =? 0 then Ok ([0], [])
  else bind (mapM (read buf a) (iter_offsets a)) (fun vs =>
       let ws := unpack_loop big vs 0 out_size in
       bind (write_all (combine (seq 0 (length ws)) ws) (repeat 0%Z out_size)) (fun out => Ok ([out_size], out))).
(* indexing.rs:1126-1190 unpackbits_axis *)
Definition unpackbits_axis (big : bool) (buf : list Z) (a : arr) (axis : nat) (count : option nat) : res (list nat * list Z) :=
  if ndim a <=? axis then unpackbits_flat big buf a count
  else
    let full := nth axis (a_shape a) 0 * 8 in
    let m := Nat.min (match count with Some c => c | None => full end) full in
    let osh := upd (a_shape a) axis m in
    if prod osh =? 0 then Ok (osh, [])
    else bind (mapM (fun oi =>
                 let i := nth axis oi 0 in
                 bind (read buf a (byte_offset_for a (upd oi axis (i / 8)))) (fun byte => Ok (bit_at big byte (i mod 8))))
               (odometer (prod osh) (repeat 0 (ndim a)) osh)) (fun out => Ok (osh, out)).

(* python/indexing.rs:694-701: negative axes count from the end, as usize *)
Definition py_axis (axis : Z) (ndim : nat) : Z := if (axis <? 0)%Z then wrap_usize (Z.of_nat ndim + axis) else axis.
