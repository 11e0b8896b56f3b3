(** Serialization of a topology cache (util.hpp 84-168, 217-220; topo_cache.hpp 64-66, 79-82) and
    the identifiers computed from it (busclique.pyx 776-801). *)
Require Import Lia.
From stdpp Require Import base list numbers.
From Verif Require Import Base.
Local Open Scope Z_scope.

(** a byte is a number; integers are stored with the least significant byte first *)
Fixpoint to_le (k : nat) (x : Z) : list Z :=
  match k with O => [] | S k => x mod 256 :: to_le k (x / 256) end.

(** the values passed to [_serialize]: 8-byte integers ([size_y], [size_x], [size_t], [uint64_t]),
    and [fat_pointer<uint8_t>] or [uint8_t[2][6]], given by their bytes *)
Inductive value := VWord (x : Z) | VBytes (b : list Z).

(** 106-114 *)
Definition size_of (v : value) : nat := match v with VWord _ => 8%nat | VBytes b => length b end.
(** 116-124: the bytes at [_serial_addr(value)] *)
Definition bytes_of (v : value) : list Z := match v with VWord x => to_le 8 x | VBytes b => b end.

(** an output buffer: [None] is a byte that was not written. [memcpy] within the buffer *)
Definition buffer := list (option Z).
Definition memcpy (out : buffer) (off : nat) (b : list Z) : res buffer :=
  if bool_decide (off + length b <= length out)%nat
  then Ok (take off out ++ (Some <$> b) ++ drop (off + length b) out) else Err UB.

(** 139-148 with [serialize_size_tag] *)
Fixpoint serialize_size (vs : list value) : nat :=
  match vs with [] => 0%nat | v :: vs => (size_of v + serialize_size vs)%nat end.
(** 127-148 with [serialize_write_tag]; [off] is the position of the pointer [output] in the buffer *)
Fixpoint serialize_write (vs : list value) (out : buffer) (off : nat) : res (buffer * nat) :=
  match vs with
  | [] => Ok (out, 0%nat)
  | v :: vs =>
      let n := size_of v in
      let! out := memcpy out off (take n (bytes_of v)) in
      let! (out, m) := serialize_write vs out (off + n)%nat in
      Ok (out, n + m)%nat
  end.

(** the topologies, with the masks of the cache: topo_cache.hpp 64-66 *)
Record stored := mkStored {
  t_dim_y : Z; t_dim_x : Z; t_shore : Z; t_seed : Z;
  t_nodemask : list Z; t_edgemask : list Z; t_badmask : list Z }.
Inductive spec :=
  | Chimera
  | Zephyr (zdim zshore : Z)
  | Pegasus (pdim : Z) (offsets : list Z).

(** 165-168 (Chimera and Zephyr) and 217-220 (Pegasus), called with the masks (topo_cache.hpp 81) *)
Definition values (sp : spec) (t : stored) : list value :=
  match sp with
  | Chimera | Zephyr _ _ => [VWord (t_dim_y t); VWord (t_dim_x t); VWord (t_shore t); VWord (t_seed t)]
  | Pegasus _ offs => [VBytes offs]
  end ++ [VBytes (t_nodemask t); VBytes (t_edgemask t); VBytes (t_badmask t)].

(** reading back what was written; reading a byte that was not written is undefined *)
Definition get_byte (out : buffer) (i : nat) : res Z :=
  match out !! i with Some (Some b) => Ok b | _ => Err UB end.
Definition get_bytes (out : buffer) (i n : nat) : res (list Z) :=
  foldM (fun r j => let! b := get_byte out j in Ok (r ++ [b])) (seq i n) [].
Fixpoint from_le (b : list Z) : Z := match b with [] => 0 | x :: b => x + 256 * from_le b end.
Definition u64 (x : Z) : Z := x mod 2 ^ 64.

(** busclique.pyx 794-797 *)
Definition shortcode (out : buffer) (n : nat) : res Z :=
  let! c := foldM (fun c i => let! w := get_bytes out (8 * i) 8 in Ok (u64 (c + from_le w))) (seq 0 (n / 8)) 0 in
  foldM (fun c j => let! b := get_byte out j in Ok (u64 (c + b * 2 ^ (Z.of_nat j mod 4))))
    (seq (n - n mod 8) (n mod 8)) c.

(** busclique.pyx 776-801: the identifier, and the number in the short identifier *)
Definition identifier (sp : spec) (t : stored) : res (list Z * Z) :=
  let n := serialize_size (values sp t) in
  let! (out, _) := serialize_write (values sp t) (replicate n None) 0 in
  let! ret := get_bytes out 0 n in
  let! c := shortcode out n in
  Ok (ret, c).
