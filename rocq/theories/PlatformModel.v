(** * Model of /repo/PlatformSupport/PlatformSupport.cpp in arena mode

    The globals memorySize, memoryUsed, currentMemory and memory (28-31) after PlatformMemorySetup has
    run at least once.  The arena is a list of bytes, pointers into it are offsets from [memory];
    malloc returns suitably aligned memory, so an offset that is a multiple of 8 is 8-aligned.
    Not modelled: the malloc/free mode before the first PlatformMemorySetup (36-40, 53-54). *)
From Verif Require Import Base MemModel.

(** PlatformSupport.cpp 24-26: MEMORY_SIZE, unless the build defines another one; the functions below
    take the size as an argument. *)
Definition MEMORY_SIZE : Z := 32767.
Record platform := mk_platform { p_bytes : list Z; p_size : Z; p_used : Z; p_current : Z }.

(** PlatformSupport.h 44 with b = sizeof(double): computed in size_t (64 bits), stored in uint32_t. *)
Definition Align8 (a : Z) : Z := cast_u32 (cast_u64 (a + 7) - cast_u64 (a + 7) mod 8).

(** PlatformSupport.cpp 41-49, [size] a size_t; [None] is nullptr *)
Definition operator_new (p : platform) (size : Z) : outcome (platform * option Z) :=
  let required := Align8 (cast_u32 size) in
  if p_size p <? cast_u32 (p_used p + required) then Ret (p, None)
  else
    let ret := p_current p in
    m <- memset (p_bytes p) ret 0 size ;;
    Ret (mk_platform m (p_size p) (cast_u32 (p_used p + required)) (p_current p + required), Some ret).
(** PlatformSupport.cpp 51-55: nothing in arena mode *)
Definition operator_delete (p : platform) (mem : Z) : platform := p.
(** PlatformSupport.cpp 62-70, first call: malloc returns a block with unknown content *)
Definition PlatformMemorySetup_first (size : Z) (junk : list Z) : platform := mk_platform junk size 0 0.
(** PlatformSupport.cpp 62-70, later calls *)
Definition PlatformMemorySetup (p : platform) : platform := mk_platform (p_bytes p) (p_size p) 0 0.
