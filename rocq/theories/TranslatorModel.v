(** * Model of the translator's decisions that do not depend on the decompiler's expression trees:
    CppTypeVisitor.cs (supported types), the names each visitor writes, HeaderTypeVisitor.cs (order of
    the type definitions), ProtoTypeVisitor.cs (enum members).

    Strings are lists of UTF-16 code units.  Culture-sensitive operations with InvariantCulture are
    modelled as ordinal ones. *)
From Verif Require Import Base MemModel FormatterModel.

(** ** Supported types: CppTypeVisitor.cs 37-168 *)
(** The dictionary legalTypes as the list of its keys, and the errors traced so far. *)
Record validator := mk_validator { legalTypes : list text; traced : list text }.
Definition known (x : text) (l : list text) : bool := existsb (text_eqb x) l.
(** Dictionary.Add *)
Definition Dictionary_Add (d : list text) (x : text) : outcome (list text) :=
  _ <- throw_if (known x d) ArgumentException ;; Ret (d ++ [x]).
(** CppTypeVisitor.cs 94-101 *)
Fixpoint LoadValidationData (d : list text) (rows : list text) : list text * bool :=
  match rows with
  | [] => (d, true)
  | r :: rows => match Dictionary_Add d r with Ret d => LoadValidationData d rows | _ => (d, false) end
  end.
(** CppTypeVisitor.cs 76-93: a file that can be read, with the given rows; any exception is caught and
    reported as a missing file ([missing]).  The XML reader is not modelled. *)
Definition LoadValidTypes (missing : text) (rows : list text) : validator :=
  let (d, ok) := LoadValidationData [] rows in mk_validator d (if ok then [] else [missing]).
(** String.Replace("&", "") *)
Definition remove_reference (s : text) : text := filter (fun c => negb (c =? 38)) s.
(** "System." *)
Definition System_dot : text := [83; 121; 115; 116; 101; 109; 46].
Fixpoint StartsWith (s p : text) {struct p} : bool :=
  match p, s with [], _ => true | c :: p, d :: s => (c =? d) && StartsWith s p | _ :: _, [] => false end.
(** CppTypeVisitor.cs 163-168; the traced message is represented by the name it quotes *)
Definition IllegalType (v : validator) (x : text) : outcome validator :=
  d <- Dictionary_Add (legalTypes v) x ;; Ret (mk_validator d (traced v ++ [x])).
(** CppTypeVisitor.cs 106-116 *)
Definition ValidateType (v : validator) (x : text) : outcome validator :=
  let x := remove_reference x in
  if negb (StartsWith x System_dot) then Ret v
  else if negb (known x (legalTypes v)) then IllegalType v x else Ret v.
(** CppTypeVisitor.cs 142-158 *)
Fixpoint BuildCallSignature (v : validator) (sb : text) (needComma : bool) (parameters : list text) : outcome (validator * text) :=
  match parameters with
  | [] => Ret (v, sb ++ [41])
  | p :: ps => v <- ValidateType v p ;; BuildCallSignature v ((if needComma then sb ++ [44] else sb) ++ p) true ps
  end.
(** CppTypeVisitor.cs 129-136; a call is its method's full name and the full names of its parameter types *)
Definition ValidateCall (v : validator) (method : text) (parameters : list text) : outcome validator :=
  r <- BuildCallSignature v (method ++ [40]) false parameters ;; ValidateType (fst r) (snd r).

(** ** Names *)
Section Environment.
Variable env : dotnet.
(** A method's name where it is declared and defined: HeaderTypeVisitor.cs 273-277, CppVisitorBase.cs 131-137 *)
Definition method_declared (name : text) : outcome text := mangle env name.
(** A method's name where it is called: MyIlInstructionVisitor.cs 530-537 (specialCallNames, 65-66), CppTypeVisitor.cs 223-230.
    [None]: no call is written at all (419-420). *)
Definition ctor_text : text := [46; 99; 116; 111; 114].
Definition op_Equality_text : text := [111; 112; 95; 69; 113; 117; 97; 108; 105; 116; 121].
Definition Equals_text : text := [69; 113; 117; 97; 108; 115].
Definition GetMethodName (name : text) : text :=
  if text_eqb name ctor_text then [] else if text_eqb name op_Equality_text then Equals_text else name.
Definition method_called (name : text) : option text := match GetMethodName name with [] => None | n => Some n end.
(** A class's name where it is declared (CppTypeVisitor.cs 186-200) and where an object is created (MyIlInstructionVisitor.cs 1045-1054) *)
Definition class_declared (name : text) : outcome text := mangle env name.
Definition class_created (name : text) : text := name.
(** A property's accessors where they are declared and defined (HeaderTypeVisitor.cs 300-318, CppVisitorBase.cs 678-708) *)
Definition get_text : text := [103; 101; 116; 95].
Definition getter_declared (name : text) : text := get_text ++ name.
(** ... and called: the C# compiler names the accessor method get_Name *)
Definition getter_called (name : text) : option text := method_called (get_text ++ name).
(** MyIlInstructionVisitor.cs 892-900 *)
Definition ReplaceSpecial (name : text) : text :=
  if StartsWith name [60] then filter (fun c => negb (c =? 62)) (filter (fun c => negb (c =? 60)) name) else name.
(** A property's backing field where it is declared (HeaderTypeVisitor.cs 319-328, MyIlInstructionVisitor.cs 1449) and
    where it is used (884-891) *)
Definition backing_declared (field : text) : text := ReplaceSpecial field.
Definition field_used (field : text) : outcome text := mangle env (ReplaceSpecial field).
(** A field where it is declared (HeaderTypeVisitor.cs 295-298) *)
Definition field_declared (field : text) : outcome text := mangle env field.

(** ** Enum members: ProtoTypeVisitor.cs 106-116 *)
Definition enum_member (member enum : text) : outcome text := m <- PrefixName env member ;; Ret (m ++ [95] ++ enum).
End Environment.

(** ** Order of the type definitions: HeaderTypeVisitor.cs *)
Inductive class_type : Type := EnumType | StructType | ClassType | InterfaceType.
(** [d_fields]: the struct types of the fields; the code never looks at them. *)
Record declaration := mk_decl { d_name : text; d_type : class_type; d_bases : list text; d_fields : list text }.
(** HeaderTypeVisitor.cs 135-147 *)
Definition IsParentOf (p c : declaration) : bool := existsb (text_eqb (d_name p)) (d_bases c).
(** HeaderTypeVisitor.cs 113-128 *)
Fixpoint insert_declaration (d : declaration) (l : list declaration) : list declaration :=
  match l with
  | [] => [d]
  | x :: l => if IsParentOf d x then d :: x :: l else x :: insert_declaration d l
  end.
Definition is_enum (d : declaration) : bool := match d_type d with EnumType => true | _ => false end.
Definition VisitTypeDeclaration (l : list declaration) (d : declaration) : list declaration :=
  if is_enum d then l else insert_declaration d l.
(** HeaderTypeVisitor.cs 77-96: the definitions in the order they are written *)
Definition is_struct (d : declaration) : bool := match d_type d with StructType => true | _ => false end.
Definition is_class (d : declaration) : bool := match d_type d with ClassType => true | _ => false end.
Definition CreateHeaders (l : list declaration) : list declaration := filter is_struct l ++ filter is_class l.
(** Program.cs 93-127: AddHeaders clears the list, every type is visited, then the headers are created *)
Definition header_of (types : list declaration) : list declaration := CreateHeaders (fold_left VisitTypeDeclaration types []).
