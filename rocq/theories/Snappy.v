(** The two sinks that receive the output of the Snappy library,
    reverb/cc/platform/default/snappy.cc, and the functions of
    reverb/cc/tensor_compression.cc:81-111 that use them.

    Memory is one function from addresses to bytes.  Addresses and sizes are
    numbers; a difference of sizes wraps around like a size_t of 64 bits.  The
    library itself is not part of the repository: what it does with a sink is a
    list of [call]s, about which the theorems assume only the protocol of
    snappy-sinksource.h. *)
From Verif Require Import Base.

Definition mem := Z -> Z.

(** Writing a list of bytes, reading [n] bytes, memcpy. *)
Definition store (m : mem) (a : Z) (bs : list Z) : mem :=
  fun x => if (a <=? x) && (x <? a + Z.of_nat (length bs)) then nth (Z.to_nat (x - a)) bs 0 else m x.
Definition read (m : mem) (a n : Z) : list Z := map (fun i => m (a + Z.of_nat i)) (seq 0 (Z.to_nat n)).
Definition memcpy (m : mem) (dst src n : Z) : mem := store m dst (read m src n).

(** What the library does with a sink: either it asks for a buffer of [len]
    bytes (offering [scratch]), writes the bytes [w] into it and appends the
    first [n] of them (GetAppendBuffer, Append); or it writes [bs] into memory of
    its own at [a] and appends that (Append, AppendAndTakeOwnership, whose
    default is Append). *)
Inductive call := Direct (scratch len : Z) (w : list Z) (n : Z) | Own (a : Z) (bs : list Z).

Definition size_sub (a b : Z) : Z := (a - b) mod 2 ^ 64.

(** CheckedByteArraySink, snappy.cc:101-149. *)
Record csink := mkCsink { k_out : Z; k_cap : Z; k_size : Z; k_over : bool }.
Definition csink_init (out cap : Z) : csink := mkCsink out cap 0 false.

(** Append, lines 114-127.  [None]: the assert of line 123 fails. *)
Definition csink_append (m : mem) (k : csink) (bytes n : Z) : option (mem * csink) :=
  let available := size_sub (k_cap k) (k_size k) in
  let over := available <? n in
  let n := if over then available else n in
  let over := over || k_over k in
  let k' := mkCsink (k_out k) (k_cap k) (k_size k + n) over in
  if (0 <? n) && negb (bytes =? k_out k + k_size k) then
    if (k_out k <=? bytes) && (bytes <? k_out k + k_cap k) then None
    else Some (memcpy m (k_out k + k_size k) bytes n, k')
  else Some (m, k').

(** GetAppendBuffer, lines 129-136. *)
Definition csink_buffer (k : csink) (len scratch : Z) : Z :=
  if len <=? size_sub (k_cap k) (k_size k) then k_out k + k_size k else scratch.

Definition csink_call (m : mem) (k : csink) (c : call) : option (mem * csink) :=
  match c with
  | Direct scratch len w n =>
    let p := csink_buffer k len scratch in csink_append (store m p w) k p n
  | Own a bs => csink_append (store m a bs) k a (Z.of_nat (length bs))
  end.
Fixpoint csink_run (m : mem) (k : csink) (cs : list call) : option (mem * csink) :=
  match cs with
  | [] => Some (m, k)
  | c :: cs => '(m, k) ← csink_call m k c; csink_run m k cs
  end.

(** A std::string: where its buffer is, its size and its capacity.  The buffer
    has one more byte for the terminator. *)
Record str := mkStr { s_data : Z; s_size : Z; s_cap : Z }.
Definition content (m : mem) (s : str) : list Z := read m (s_data s) (s_size s).

(** Memory for at least [need] bytes: the allocator says where the new buffer is
    and how large, given the old one; the contents move.  (A string grows by a
    factor; the allocator's answer includes that.) *)
Definition grow (alloc : str -> Z -> Z * Z) (m : mem) (s : str) (need : Z) : mem * str :=
  if need <=? s_cap s then (m, s)
  else let '(a, c) := alloc s need in
       (memcpy m a (s_data s) (s_size s), mkStr a (s_size s) c).
(** The size is set and the terminator written. *)
Definition set_size (m : mem) (s : str) (n : Z) : mem * str :=
  (store m (s_data s + n) [0], mkStr (s_data s) n (s_cap s)).

(** STLStringResizeUninitialized, lines 57-61, where the string has
    __resize_default_init. *)
Definition resize_uninit (alloc : str -> Z -> Z * Z) (m : mem) (s : str) (n : Z) : mem * str :=
  let '(m, s) := grow alloc m s n in set_size m s n.
(** std::string::append of bytes outside of the string. *)
Definition string_append (alloc : str -> Z -> Z * Z) (m : mem) (s : str) (data n : Z) : mem * str :=
  let '(m, s) := grow alloc m s (s_size s + n) in
  set_size (memcpy m (s_data s + s_size s) data n) s (s_size s + n).

(** StringSink, lines 63-98.  [nt]: STLStringSupportsNontrashingResize, which
    depends on the standard library.  Append, lines 71-81. *)
Definition ssink_append (nt : bool) (alloc : str -> Z -> Z * Z) (m : mem) (s : str) (data n : Z) : mem * str :=
  if nt && (data =? s_data s + s_size s) then resize_uninit alloc m s (s_size s + n)
  else string_append alloc m s data n.
(** GetAppendBuffer, lines 83-99. *)
Definition ssink_buffer (nt : bool) (alloc : str -> Z -> Z * Z) (m : mem) (s : str) (size scratch : Z) : mem * str * Z :=
  if negb nt then (m, s, scratch)
  else let current := s_size s in
       let '(m, s) := if s_cap s <? size + current
                      then let '(m, s) := resize_uninit alloc m s (size + current) in resize_uninit alloc m s current
                      else (m, s) in
       (m, s, s_data s + current).

Definition ssink_call (nt : bool) (alloc : str -> Z -> Z * Z) (m : mem) (s : str) (c : call) : mem * str :=
  match c with
  | Direct scratch len w n =>
    let '(m, s, p) := ssink_buffer nt alloc m s len scratch in
    ssink_append nt alloc (store m p w) s p n
  | Own a bs => ssink_append nt alloc (store m a bs) s a (Z.of_nat (length bs))
  end.
Fixpoint ssink_run (nt : bool) (alloc : str -> Z -> Z * Z) (m : mem) (s : str) (cs : list call) : mem * str :=
  match cs with
  | [] => (m, s)
  | c :: cs => let '(m, s) := ssink_call nt alloc m s c in ssink_run nt alloc m s cs
  end.

(** The library: for given bytes, the calls it makes on the sink it is given.
    [env] stands for everything else that they depend on (versions, sizes of
    blocks, addresses).  Uncompress may also fail, after some calls. *)
Record snappy (env : Type) := mkSnappy {
  compress : env -> list Z -> list call;
  uncompress : env -> list Z -> list call * bool }.
Arguments compress {env}. Arguments uncompress {env}.

(** A tensor as tensor_compression.cc sees it: the data type and the shape (both
    opaque here), whether the type is DT_STRING, and the bytes of tensor_data(),
    or for strings the elements. [x_bytes]: the number of bytes that a tensor of
    that type and shape has. *)
Record xtype := mkXtype { x_id : Z; x_string : bool; x_width : Z }.
Record xtensor := mkXtensor { x_ty : xtype; x_shape : list nat; x_data : list Z }.
Definition x_bytes (t : xtype) (sh : list nat) : Z := x_width t * Z.of_nat (foldr Nat.mul 1%nat sh).
Record xproto := mkXproto { xp_ty : xtype; xp_shape : list nat; xp_content : list Z }.

(** CompressTensorAsProto, lines 81-91; the content of a new proto is the empty
    string [s0].  SnappyCompressFromString, snappy.cc:153-158. *)
Definition compress_tensor {env} (sn : snappy env) (e : env) (nt : bool) (alloc : str -> Z -> Z * Z) (m : mem) (s0 : str)
    (t : xtensor) : xproto :=
  if x_string (x_ty t) then mkXproto (x_ty t) (x_shape t) (x_data t)
  else let '(m, s) := ssink_run nt alloc m s0 (compress sn e (x_data t)) in
       mkXproto (x_ty t) (x_shape t) (content m s).

(** DecompressTensorFromProto, lines 93-108, the tensor being allocated at
    [out].  The result of SnappyUncompressToString (snappy.cc:160-166) is not
    looked at.  [None]: the assert of the sink.  Also returned: the memory. *)
Definition decompress_tensor {env} (sn : snappy env) (e : env) (m : mem) (out : Z) (p : xproto) : option (xtensor * mem) :=
  if x_string (xp_ty p) then Some (mkXtensor (xp_ty p) (xp_shape p) (xp_content p), m)
  else let cap := x_bytes (xp_ty p) (xp_shape p) in
       '(m, _) ← csink_run m (csink_init out cap) (fst (uncompress sn e (xp_content p)));
       Some (mkXtensor (xp_ty p) (xp_shape p) (read m out cap), m).
