(** * Model of one run of the translator: Program.cs 48-134, Formatter.cs 53-65, 132-136, 357-371, CppTraceListener.cs 33-105

    The visitors are parameters: for every pass and every type, the calls they make on the output writer and
    the exception that ends them, if any (both may depend on everything visited before in the run).  The
    disk is a map from paths to contents; a StreamWriter creates or truncates its file at once, and what
    was written to it reaches the file when it is closed.  Not modelled: failures of the disk, the
    creation of the directory (90), culture-sensitive comparison of names (111: ordinal here). *)
From Coq Require Import String.
From Verif Require Import Base MemModel FormatterModel FormatterSpec FormatterProofs.

Inductive type_kind := KClass | KEnum | KStruct | KOther.   (* interfaces, delegates, ... *)
Record type_def := mk_type { t_kind : type_kind; t_name : text; t_space : text }.
Record module := mk_module { is_main : bool; top_types : list type_def }.
Inductive pass := Protos | Header | Source.

(** String.StartsWith, String.Contains *)
Fixpoint starts_with (p s : text) : bool :=
  match p, s with [], _ => true | a :: p, b :: s => (a =? b) && starts_with p s | _ :: _, [] => false end.
Fixpoint contains_text (p s : text) : bool := starts_with p s || match s with [] => false | _ :: s => contains_text p s end.
(** 107-111 *)
Definition eligible (t : type_def) : bool :=
  match t_kind t with KClass | KEnum | KStruct => true | KOther => false end &&
  negb (starts_with (T "<") (t_name t)) && negb (contains_text (T "CppTranslatorSupport") (t_space t)).

(** 78-92.  LastIndexOf is -1 if there is none. *)
Fixpoint last_index_from (i : Z) (c : Z) (s : text) : Z :=
  match s with [] => -1 | x :: s => let r := last_index_from (i + 1) c s in if r =? -1 then (if x =? c then i else -1) else r end.
Definition LastIndexOf (c : Z) (s : text) : Z := last_index_from 0 c s.
Definition contains_char (c : Z) (s : text) : bool := existsb (Z.eqb c) s.
Definition GetPathToAssembly (arg : text) : outcome text :=
  let index := if contains_char 47 arg then LastIndexOf 47 arg else LastIndexOf 92 arg in
  path <- Substring arg 0 (index + 1) ;; Ret (path ++ T "generated/Translated").

(** ** The disk *)
Definition disk := text -> option text.
Definition put (d : disk) (path content : text) : disk := fun p => if text_eqb p path then Some content else d p.
Definition read (d : disk) (path : text) : text := match d path with Some c => c | None => [] end.

Section Run.
Variable env : dotnet.
Variable add_headers : pass -> list call.                                              (* AddHeaders *)
Variable visit_type : pass -> list type_def -> type_def -> list call * option exn.    (* Decompile and AcceptVisitor *)
Variable create_headers : pass -> list type_def -> list call * option exn.            (* CreateHeaders *)
Variable describe : exn -> text.                                                        (* the lines of the log, with the time *)

(** What a step leaves: the disk, and the output writer unless an exception was thrown. *)
Definition step := (disk * outcome formatter)%type.
(** Formatter.cs 357-366 *)
Definition CloseFile (d : disk) (f : formatter) : step :=
  match file f with
  | None => (d, Ret f)
  | Some name => match CloseNamespace env f with
                 | Ret g => (put d name (buffer g), Close env f)
                 | r => (d, r)
                 end
  end.
(** Formatter.cs 59-63, 367-371 *)
Definition OpenFile (d : disk) (f : formatter) (path : text) : step :=
  match CloseFile d f with
  | (d, Ret _) => (put d path [], set_OutputName env f path)
  | (d, r) => (d, r)
  end.
Definition perform (f : formatter) (c : list call * option exn) : outcome formatter :=
  f <- do_calls env f (fst c) ;; match snd c with Some e => Exn e | None => Ret f end.
(** 105-123: the types of the main module.  [visited]: the types visited before; none means that the output file is not set. *)
Fixpoint process_types (p : pass) (path : text) (visited l : list type_def) (d : disk) (f : formatter) : disk * outcome (formatter * list type_def) :=
  match l with
  | [] => (d, Ret (f, visited))
  | t :: l =>
      if eligible t then
        let (d, r) := match visited with
                      | [] => let (d, r) := OpenFile d f path in (d, f <- r ;; do_calls env f (add_headers p))
                      | _ => (d, Ret f)
                      end in
        match (f <- r ;; perform f (visit_type p visited t)) with
        | Ret f => process_types p path (visited ++ [t]) l d f
        | Exn e => (d, Exn e)
        | UB u => (d, UB u)
        end
      else process_types p path visited l d f
  end.
(** 98-127 *)
Fixpoint process_modules (p : pass) (path : text) (visited : list type_def) (l : list module) (d : disk) (f : formatter) : step :=
  match l with
  | [] => CloseFile d f
  | m :: l =>
      if is_main m then
        match process_types p path visited (top_types m) d f with
        | (d, Ret (f, visited)) =>
            match perform f (create_headers p visited) with
            | Ret f => process_modules p path visited l d f
            | r => (d, r)
            end
        | (d, Exn e) => (d, Exn e)
        | (d, UB u) => (d, UB u)
        end
      else process_modules p path visited l d f
  end.
Definition ProcessModules (p : pass) (path : text) (ms : list module) (d : disk) (f : formatter) : step := process_modules p path [] ms d f.

Definition extension (p : pass) : text := match p with Protos => T "Protos.h" | Header => T "Header.h" | Source => T ".cpp" end.
Fixpoint process_passes (base : text) (ms : list module) (ps : list pass) (d : disk) (f : formatter) : step :=
  match ps with
  | [] => (d, Ret f)
  | p :: ps => match ProcessModules p (base ++ extension p) ms d f with
               | (d, Ret f) => process_passes base ms ps d f
               | (d, r) => (d, r)
               end
  end.
(** 48-73: a program with [args]; [load]: what LoadValidTypes and the decompiler make of the file.  71-72 and
    CppTraceListener.cs 41-57, 65-75, 89-98: messages are appended to the log. *)
Definition Main (args : list text) (load : outcome (list module)) (d : disk) : disk :=
  match args with
  | [arg] =>
      match GetPathToAssembly arg with
      | Ret base =>
          let log := base ++ T ".err" in
          let (d, r) := match load with
                        | Ret ms => process_passes base ms [Protos; Header; Source] d new_formatter
                        | Exn e => (d, Exn e)
                        | UB u => (d, UB u)
                        end in
          match r with
          | Exn e => put d log (read d log ++ describe e)
          | _ => d
          end
      | _ => d
      end
  | _ => d
  end.
End Run.
