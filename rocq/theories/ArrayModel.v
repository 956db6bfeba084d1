(** * Model of /repo/DotNetLibrary/src/Array.cpp

    An [Array] object (include/Array.h 27-35) is a record; its [data] block is a list of bytes.
    Arrays are held in a heap indexed by array identities, an [Array*] is an optional identity.
    Linux x86-64 sizes.  Not modelled: arrays wrapping external memory (Array.cpp 43-46), the
    destructor, and Array.cpp 255-260 which are trivial getters (the fields are read directly). *)
From Verif Require Import Base BoxModel Bytes MemModel.

(** Array.cpp 22-42 *)
Definition DataTypeSize (t : dtype) : Z :=
  match t with
  | NullType => 0
  | ObjectType | DecimalType | StringType => 8
  | BooleanType | SByteType | ByteType => 1
  | CharType => 4
  | Int16Type | UInt16Type => 2
  | Int32Type | UInt32Type | SingleType => 4
  | Int64Type | UInt64Type | DoubleType | DateTimeType | TimeSpanType => 8
  end.

(** include/Array.h 29-35 *)
Record arr := mk_arr {
  dataType : dtype;
  dimension1Size : Z;
  dimension2Size : Z;
  dimension3Size : Z;
  dimensionCount : Z;
  totalElementCount : Z;
  data : list Z
}.
Definition set_data (a : arr) (d : list Z) : arr :=
  mk_arr (dataType a) (dimension1Size a) (dimension2Size a) (dimension3Size a) (dimensionCount a) (totalElementCount a) d.

Definition heap := nat -> arr.
Definition hset (h : heap) (p : nat) (a : arr) : heap := fun q => if Nat.eqb q p then a else h q.

(** Array.cpp 51-66: dimensionCount and totalElementCount *)
Definition InitializeData (d1 d2 d3 : Z) : outcome (Z * Z) :=
  '(n, total) <- (if negb (d2 =? -1) then t <- i32 (d1 * d2) ;; Ret (2, t) else Ret (1, d1)) ;;
  if negb (d3 =? -1) then t <- i32 (total * d3) ;; Ret (n + 1, t) else Ret (n, total).

(** Array.cpp 47-50; [operator new[]] zero-fills (PlatformSupport.cpp 33-51); a negative count makes
    the array-new expression throw std::bad_array_new_length (here OutOfMemory). *)
Definition Array_new (t : dtype) (d1 d2 d3 : Z) : outcome arr :=
  '(n, total) <- InitializeData d1 d2 d3 ;;
  bytes <- i32 (total * DataTypeSize t) ;;
  if bytes <? 0 then Exn OutOfMemoryException else
  Ret (mk_arr t d1 d2 d3 n total (repeat 0 (Z.to_nat bytes))).

(** Array.cpp 115-142 *)
Definition ComputeIndex (a : arr) (index1 index2 index3 : Z) : outcome Z :=
  let d1 := dimension1Size a in let d2 := dimension2Size a in let d3 := dimension3Size a in
  if dimensionCount a =? 1 then
    _ <- throw_if ((index1 <? 0) || (0 <=? index2) || (0 <=? index3)) IndexOutOfRangeException ;;
    _ <- throw_if (d1 <=? index1) IndexOutOfRangeException ;;
    Ret index1
  else if dimensionCount a =? 2 then
    _ <- throw_if ((index1 <? 0) || (index2 <? 0) || (0 <=? index3)) IndexOutOfRangeException ;;
    _ <- throw_if ((d1 <=? index1) || (d2 <=? index2)) IndexOutOfRangeException ;;
    p <- i32 (index1 * d2) ;; i32 (p + index2)
  else if dimensionCount a =? 3 then
    _ <- throw_if ((index1 <? 0) || (index2 <? 0) || (index3 <? 0)) IndexOutOfRangeException ;;
    _ <- throw_if ((d1 <=? index1) || (d2 <=? index2) || (d3 <=? index3)) IndexOutOfRangeException ;;
    p <- i32 (index1 * d2) ;; q <- i32 (p * d3) ;; r <- i32 (index2 * d3) ;; s <- i32 (q + r) ;; i32 (s + index3)
  else Ret 0.

(** Array.cpp 72-74: the byte offset of the address inside [data]. *)
Definition Address (a : arr) (index1 index2 index3 : Z) : outcome Z :=
  i <- ComputeIndex a index1 index2 index3 ;; i32 (i * DataTypeSize (dataType a)).

(** Array.cpp 143-146 *)
Definition EnsureSingleDimension (a : arr) : outcome unit :=
  throw_if (negb (dimensionCount a =? 1)) RankException.

(** Array.cpp 339-349: every test creates an exception object but does not throw it. *)
Definition VerifyIndexWithinRangeOfArray (a : arr) (startingIndex amountOfElements : Z) : outcome unit :=
  _ <- EnsureSingleDimension a ;;
  _ <- i32 (startingIndex + amountOfElements) ;;
  Ret tt.

(** Array.cpp 75-82 *)
Definition Array_Clear (h : heap) (array : option nat) (startingIndex amount : Z) : outcome heap :=
  match array with
  | None => Exn ArgumentNullException
  | Some p =>
    let a := h p in
    _ <- EnsureSingleDimension a ;;
    let elementSize := DataTypeSize (dataType a) in
    _ <- VerifyIndexWithinRangeOfArray a startingIndex amount ;;
    off <- i32 (startingIndex * elementSize) ;;
    n <- i32 (amount * elementSize) ;;
    d <- memset (data a) off 0 n ;;
    Ret (hset h p (set_data a d))
  end.

(** Array.cpp 89-107 *)
Definition Array_Copy (h : heap) (source : option nat) (sourceIndex : Z) (destination : option nat)
    (destinationIndex length : Z) : outcome heap :=
  match source, destination with
  | Some ps, Some pd =>
    let s := h ps in let d := h pd in
    let elementSize := DataTypeSize (dataType s) in
    _ <- throw_if (length <? 0) ArgumentOutOfRangeException ;;
    _ <- throw_if ((sourceIndex <? 0) || (destinationIndex <? 0)) ArgumentException ;;
    se <- i32 (sourceIndex + length) ;;
    bad <- (if totalElementCount s <? se then Ret true
            else de <- i32 (destinationIndex + length) ;; Ret (totalElementCount d <? de)) ;;
    _ <- throw_if bad ArgumentException ;;
    _ <- throw_if (negb (dimensionCount s =? dimensionCount d)) RankException ;;
    _ <- throw_if (negb (dtype_eqb (dataType s) (dataType d))) NotImplementedException ;;
    doff <- i32 (destinationIndex * elementSize) ;;
    soff <- i32 (sourceIndex * elementSize) ;;
    tsz <- i32 (length * elementSize) ;;
    nd <- (if Nat.eqb ps pd then memcpy_self (data d) doff soff tsz
           else memcpy (data d) doff (data s) soff tsz) ;;
    Ret (hset h pd (set_data d nd))
  | _, _ => Exn ArgumentNullException
  end.
(** Array.cpp 83-88: the two other overloads. *)
Definition Array_Copy0 h source destination length := Array_Copy h source 0 destination 0 length.

(** Array.cpp 108-114; [self] is the receiver. *)
Definition Array_CopyTo (h : heap) (self : nat) (array : option nat) (index : Z) : outcome heap :=
  match array with
  | None => Exn ArgumentNullException
  | Some p =>
    _ <- EnsureSingleDimension (h p) ;;
    _ <- VerifyIndexWithinRangeOfArray (h p) index (totalElementCount (h self)) ;;
    Array_Copy h (Some self) 0 (Some p) index (dimension1Size (h self))
  end.

(** Array.cpp 147-157, 158-162, 163-167 *)
Definition GetLength (a : arr) (rank : Z) : outcome Z :=
  _ <- throw_if (dimensionCount a <? rank) IndexOutOfRangeException ;;
  Ret (if rank =? 0 then dimension1Size a
       else if rank =? 1 then dimension2Size a
       else if rank =? 2 then dimension3Size a
       else -1).
Definition GetLowerBound (a : arr) (rank : Z) : outcome Z :=
  _ <- throw_if (dimensionCount a <? rank) IndexOutOfRangeException ;; Ret 0.
Definition GetUpperBound (a : arr) (rank : Z) : outcome Z :=
  _ <- throw_if (dimensionCount a <? rank) IndexOutOfRangeException ;;
  l <- GetLength a rank ;; i32 (l - 1).

(** What [GetValue] returns: null, the stored object pointer, or a new box. *)
Inductive gval := GNull | GRef (addr : Z) | GBox (v : box).

(** Reading an element of type [t] from its bytes (Array.cpp 185-223). *)
Definition decode (t : dtype) (bytes : list Z) : outcome gval :=
  let u := le_value bytes in
  match t with
  | NullType => Ret GNull
  | ObjectType | StringType => Ret (GRef u)
  | BooleanType => Ret (GBox (BBool (negb (u =? 0))))
  | CharType => Ret (GBox (BInt IChar (cast_i32 u)))
  | SByteType => Ret (GBox (BInt ISByte (cast_i8 u)))
  | ByteType => Ret (GBox (BInt IByte u))
  | Int16Type => Ret (GBox (BInt IInt16 (cast_i16 u)))
  | UInt16Type => Ret (GBox (BInt IUInt16 u))
  | Int32Type => Ret (GBox (BInt IInt32 (cast_i32 u)))
  | UInt32Type => Ret (GBox (BInt IUInt32 u))
  | Int64Type => Ret (GBox (BInt IInt64 (cast_i64 u)))
  | UInt64Type => Ret (GBox (BInt IUInt64 u))
  | SingleType => Ret (GBox (BSingle u))
  | DoubleType => Ret (GBox (BDouble u))
  | DecimalType => Exn InvalidCastException
  | DateTimeType => Ret (GBox (BDateTime u))
  | TimeSpanType => Ret (GBox (BTimeSpan (cast_i64 u)))
  end.

(** Array.cpp 183-225 *)
Definition GetValue (a : arr) (index1 index2 index3 : Z) : outcome gval :=
  off <- Address a index1 index2 index3 ;;
  match dataType a with
  | NullType => Ret GNull
  | DecimalType => Exn InvalidCastException
  | t => bytes <- memread (data a) off (DataTypeSize t) ;; decode t bytes
  end.

(** The number written by [SetValue] for element type [t] (Array.cpp 270-323).  [objs] gives the
    object at an address. *)
Definition encode (t : dtype) (addr : Z) (v : box) : outcome Z :=
  match t with
  | ObjectType | StringType => Ret addr
  | BooleanType => b <- get_AsBoolean v ;; Ret (if b : bool then 1 else 0)
  | CharType => get_AsChar v
  | ByteType => get_AsInt IInt32 v
  | SByteType => get_AsInt IInt32 v
  | Int16Type => get_AsInt IInt32 v
  | UInt16Type => get_AsInt IUInt32 v
  | Int32Type => get_AsInt IInt32 v
  | UInt32Type => get_AsInt IUInt32 v
  | Int64Type => get_AsInt IInt64 v
  | UInt64Type => get_AsInt IInt64 v
  | SingleType => get_AsSingle v
  | DoubleType => get_AsDouble v
  | DateTimeType => get_AsDateTime v
  | TimeSpanType => get_AsTimeSpan v
  | NullType | DecimalType => Exn InvalidCastException
  end.

(** Array.cpp 266-324.  The store truncates the converted number to the element size. *)
Definition SetValue (objs : Z -> box) (a : arr) (value index1 index2 index3 : Z) : outcome arr :=
  _ <- throw_if (value =? 0) ArgumentNullException ;;
  off <- Address a index1 index2 index3 ;;
  z <- encode (dataType a) value (objs value) ;;
  d <- memwrite (data a) off (le_bytes (Z.to_nat (DataTypeSize (dataType a))) z) ;;
  Ret (set_data a d).

(** Array.cpp 168-182 and 325-338: indices taken from an Int32 array. *)
Definition index_at (indexes : arr) (i : Z) : outcome Z :=
  off <- Address indexes i (-1) (-1) ;; b <- memread (data indexes) off 4 ;; Ret (cast_i32 (le_value b)).
Definition read_indexes (indexes : arr) : outcome (option (Z * Z * Z)) :=
  _ <- EnsureSingleDimension indexes ;;
  let arraySize := dimension1Size indexes in
  _ <- throw_if (3 <? arraySize) NotImplementedException ;;
  if arraySize =? 0 then Ret None else
  i1 <- index_at indexes 0 ;;
  i2 <- (if 1 <? arraySize then index_at indexes 1 else Ret (-1)) ;;
  i3 <- (if 2 <? arraySize then index_at indexes 2 else Ret (-1)) ;;
  Ret (Some (i1, i2, i3)).
Definition GetValue_array (h : heap) (self : nat) (indexes : option nat) : outcome gval :=
  match indexes with
  | None => Exn ArgumentNullException
  | Some p => r <- read_indexes (h p) ;;
              match r with None => Ret GNull | Some (i1, i2, i3) => GetValue (h self) i1 i2 i3 end
  end.
Definition SetValue_array (objs : Z -> box) (h : heap) (self : nat) (value : Z) (indexes : option nat) : outcome heap :=
  match indexes with
  | None => Exn ArgumentNullException
  | Some p => r <- read_indexes (h p) ;;
              match r with
              | None => Ret h
              | Some (i1, i2, i3) => a <- SetValue objs (h self) value i1 i2 i3 ;; Ret (hset h self a)
              end
  end.

(** Array.cpp 240-252: the search loop from [i], [n] elements left.  [equals obj value] is the
    virtual call [obj->Equals(value)]. *)
Fixpoint IndexOf_loop (equals : Z -> Z -> outcome bool) (a : arr) (value i : Z) (n : nat) : outcome Z :=
  match n with
  | O => Ret (-1)
  | S n =>
    g <- GetValue a i (-1) (-1) ;;
    let obj := match g with GRef p => p | _ => 0 end in
    found <- (if obj =? 0 then Ret (value =? 0) else equals obj value) ;;
    if found : bool then Ret i else IndexOf_loop equals a value (i + 1) n
  end.
(** Array.cpp 226-254; the lower bound is always 0. *)
Definition Array_IndexOf (equals : Z -> Z -> outcome bool) (h : heap) (array : option nat) (value startIndex count : Z) : outcome Z :=
  match array with
  | None => Exn ArgumentNullException
  | Some p =>
    let a := h p in
    _ <- throw_if (negb (dimensionCount a =? 1)) RankException ;;
    count <- (if count <? 0 then i32 (totalElementCount a - startIndex) else Ret count) ;;
    lb <- GetLowerBound a 0 ;;
    _ <- throw_if ((startIndex <? lb) || (totalElementCount a + lb <? startIndex)) ArgumentOutOfRangeException ;;
    _ <- throw_if ((count <? 0) || (totalElementCount a - startIndex + lb <? count)) ArgumentOutOfRangeException ;;
    _ <- throw_if (negb (dtype_eqb (dataType a) ObjectType) && negb (dtype_eqb (dataType a) StringType)) NotImplementedException ;;
    _ <- i32 (startIndex + count) ;;
    IndexOf_loop equals a value startIndex (Z.to_nat count)
  end.

(** Array.cpp 261-265: [src] is the block pointed to by initialData. *)
Definition Array_Initialize (a : arr) (src : list Z) : outcome arr :=
  n <- i32 (totalElementCount a * DataTypeSize (dataType a)) ;;
  d <- memcpy (data a) 0 src 0 n ;;
  Ret (set_data a d).
