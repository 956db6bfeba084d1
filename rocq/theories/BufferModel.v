(** * Model of /repo/DotNetLibrary/src/Buffer.cpp and of the value conversions of BitConverter.cpp *)
From Verif Require Import Base BoxModel Bytes MemModel ArrayModel.

(** Object.cpp 35-37 *)
Definition IsPrimitiveType (t : dtype) : bool :=
  negb (dtype_eqb t ObjectType) && negb (dtype_eqb t StringType) && negb (dtype_eqb t NullType).

(** Buffer.cpp 22-44.  The sums are Int32; the comparison with the UInt32 lengths is the mathematical
    one because both sides are non-negative by then. *)
Definition BlockCopy (h : heap) (src : option nat) (srcOffset : Z) (dst : option nat) (dstOffset count : Z) : outcome heap :=
  match src, dst with
  | Some ps, Some pd =>
    let s := h ps in let d := h pd in
    _ <- EnsureSingleDimension s ;;
    _ <- EnsureSingleDimension d ;;
    _ <- throw_if (negb (IsPrimitiveType (dataType s))) ArgumentException ;;
    _ <- throw_if (negb (IsPrimitiveType (dataType d))) ArgumentException ;;
    _ <- throw_if (srcOffset <? 0) ArgumentOutOfRangeException ;;
    _ <- throw_if (dstOffset <? 0) ArgumentOutOfRangeException ;;
    _ <- throw_if (count <? 0) ArgumentOutOfRangeException ;;
    sourceLength <- i32 (totalElementCount s * DataTypeSize (dataType s)) ;;
    destinationLength <- i32 (totalElementCount d * DataTypeSize (dataType d)) ;;
    se <- i32 (srcOffset + count) ;;
    bad <- (if sourceLength <? se then Ret true
            else de <- i32 (dstOffset + count) ;; Ret (destinationLength <? de)) ;;
    _ <- throw_if bad ArgumentException ;;
    doff <- Address d 0 (-1) (-1) ;;
    soff <- Address s 0 (-1) (-1) ;;
    nd <- (if Nat.eqb ps pd then memmove_self (data d) (doff + dstOffset) (soff + srcOffset) count
           else memcpy (data d) (doff + dstOffset) (data s) (soff + srcOffset) count) ;;
    Ret (hset h pd (set_data d nd))
  | _, _ => Exn ArgumentNullException
  end.

(** Buffer.cpp 45-57 *)
Definition ByteLength (h : heap) (array : option nat) : outcome Z :=
  match array with
  | None => Exn ArgumentNullException
  | Some p =>
    let a := h p in
    _ <- throw_if (negb (IsPrimitiveType (dataType a))) ArgumentException ;;
    _ <- EnsureSingleDimension a ;;
    i32 (totalElementCount a * DataTypeSize (dataType a))
  end.
(** Buffer.cpp 58-63: the index is compared with the length only. *)
Definition GetByte (h : heap) (array : option nat) (index : Z) : outcome Z :=
  n <- ByteLength h array ;;
  _ <- throw_if (n <=? index) ArgumentOutOfRangeException ;;
  match array with
  | None => UB NullDereference
  | Some p => off <- Address (h p) 0 (-1) (-1) ;; read (data (h p)) (off + index)
  end.
(** Buffer.cpp 64-69 *)
Definition SetByte (h : heap) (array : option nat) (index value : Z) : outcome heap :=
  n <- ByteLength h array ;;
  _ <- throw_if (n <=? index) ArgumentOutOfRangeException ;;
  match array with
  | None => UB NullDereference
  | Some p => off <- Address (h p) 0 (-1) (-1) ;; d <- write (data (h p)) (off + index) value ;; Ret (hset h p (set_data (h p) d))
  end.

(** ** BitConverter.  Values are given by type and number; Single and Double by their bit patterns. *)
(** The overloads of GetBytes/ToX: Boolean is separate. *)
Inductive bc_type := BcChar | BcInt16 | BcUInt16 | BcInt32 | BcUInt32 | BcInt64 | BcUInt64 | BcSingle | BcDouble.
(** sizeof of the type used for the transfer (BitConverter.cpp 52-80, 90-135): Char travels as Int16. *)
Definition bc_size (t : bc_type) : Z :=
  match t with BcChar | BcInt16 | BcUInt16 => 2 | BcInt32 | BcUInt32 | BcSingle => 4 | BcInt64 | BcUInt64 | BcDouble => 8 end.

(** BitConverter.cpp 28-32: a new Byte array holding [bytes]. *)
Definition BC_GetBytes (bytes : list Z) : outcome arr :=
  a <- Array_new ByteType (zlen bytes) (-1) (-1) ;;
  off <- Address a 0 (-1) (-1) ;;
  d <- memcpy (data a) off bytes 0 (zlen bytes) ;;
  Ret (set_data a d).
(** BitConverter.cpp 33-42: the bytes put in the destination variable. *)
Definition PutBytes (h : heap) (src : option nat) (start_index count : Z) : outcome (list Z) :=
  match src with
  | None => Exn ArgumentNullException
  | Some p =>
    let a := h p in
    last <- i32 (totalElementCount a - 1) ;;
    _ <- throw_if ((start_index <? 0) || (last <? start_index)) ArgumentOutOfRangeException ;;
    room <- i32 (totalElementCount a - count) ;;
    _ <- throw_if (room <? start_index) ArgumentException ;;
    off <- Address a start_index (-1) (-1) ;;
    memread (data a) off count
  end.
(** BitConverter.cpp 52-80; the bytes of a variable are its little-endian bytes (x86-64).
    Char: [(Int16) value] keeps the low 16 bits. *)
Definition GetBytes_of (t : bc_type) (v : Z) : outcome arr := BC_GetBytes (le_bytes (Z.to_nat (bc_size t)) v).
(** BitConverter.cpp 49-51 *)
Definition GetBytes_bool (b : bool) : outcome arr := BC_GetBytes (le_bytes 1 (if b then 1 else 0)).
(** BitConverter.cpp 90-135: how the transferred bytes are read back. *)
Definition bc_read (t : bc_type) (bytes : list Z) : Z :=
  let u := le_value bytes in
  match t with
  | BcChar | BcInt16 => cast_i16 u
  | BcInt32 => cast_i32 u
  | BcInt64 => cast_i64 u
  | BcUInt16 | BcUInt32 | BcUInt64 | BcSingle | BcDouble => u
  end.
Definition To_of (t : bc_type) (h : heap) (value : option nat) (startIndex : Z) : outcome Z :=
  b <- PutBytes h value startIndex (bc_size t) ;; Ret (bc_read t b).
(** BitConverter.cpp 81-89 *)
Definition ToBoolean (h : heap) (value : option nat) (startIndex : Z) : outcome bool :=
  match value with
  | None => Exn ArgumentNullException
  | Some p =>
    let a := h p in
    last <- i32 (totalElementCount a - 1) ;;
    _ <- throw_if ((startIndex <? 0) || (last <? startIndex)) ArgumentOutOfRangeException ;;
    off <- Address a startIndex (-1) (-1) ;;
    b <- read (data a) off ;;
    Ret (negb (b =? 0))
  end.
(** BitConverter.cpp 43-48: both reinterpret the same 64 bits. *)
Definition DoubleToInt64Bits (d : Z) : Z := cast_i64 d.
Definition Int64BitsToDouble (v : Z) : Z := cast_u64 v.
(** BitConverter.cpp 22-27: the first byte of the double 1.0. *)
Definition AmILittleEndian : bool := match le_bytes 8 (double_of_Z 1) with b :: _ => b =? 0 | [] => false end.
