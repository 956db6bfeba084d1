(** * Specification for C98: the files a run of the translator leaves behind *)
From Coq Require Import String.
From Verif Require Import Base MemModel FormatterModel FormatterSpec FormatterProofs RunModel.

(** The types that are to be translated, in order. *)
Definition wanted (t : type_def) : Prop :=
  (t_kind t = KClass \/ t_kind t = KEnum \/ t_kind t = KStruct) /\ (forall n, t_name t <> T "<" ++ n) /\ ~ exists a b, t_space t = a ++ T "CppTranslatorSupport" ++ b.
Inductive selected : list type_def -> list type_def -> Prop :=
  | S_nil : selected [] []
  | S_take t l s : wanted t -> selected l s -> selected (t :: l) (t :: s)
  | S_skip t l s : ~ wanted t -> selected l s -> selected (t :: l) s.
Definition program_types (ms : list module) (ts : list type_def) : Prop :=
  exists a m b, ms = a ++ m :: b /\ is_main m = true /\ Forall (fun m => is_main m = false) (a ++ b) /\ selected (top_types m) ts.

(** Calls, until the first exception. *)
Definition then_ (a b : list call * option exn) : list call * option exn :=
  match snd a with Some e => (fst a, Some e) | None => (fst a ++ fst b, snd b) end.
Section Texts.
Variable env : dotnet.
Variable add_headers : pass -> list call.
Variable visit_type : pass -> list type_def -> type_def -> list call * option exn.
Variable create_headers : pass -> list type_def -> list call * option exn.
Fixpoint visits (p : pass) (visited l : list type_def) : list call * option exn :=
  match l with [] => ([], None) | t :: l => then_ (visit_type p visited t) (visits p (visited ++ [t]) l) end.
Definition pass_calls (p : pass) (ts : list type_def) : list call * option exn :=
  then_ (add_headers p, None) (then_ (visits p [] ts) (create_headers p ts)).
(** The text of one output file, written by an output writer in state [f], and the state it leaves. *)
Definition produce (f : formatter) (path : text) (p : pass) (ts : list type_def) : outcome (text * formatter) :=
  f <- set_OutputName env f path ;;
  f <- do_calls env f (fst (pass_calls p ts)) ;;
  match snd (pass_calls p ts) with
  | Some e => Exn e
  | None => g <- CloseNamespace env f ;; f <- Close env f ;; Ret (buffer g, f)
  end.
End Texts.
(** A path: a directory (empty, or with its last separator) and a file name. *)
Definition separator (c : Z) : bool := (c =? 47) || (c =? 92).
Definition directory_of (dir name : text) : Prop :=
  forallb (fun c => negb (separator c)) name = true /\ (dir = [] \/ exists d c, dir = d ++ [c] /\ separator c = true).
