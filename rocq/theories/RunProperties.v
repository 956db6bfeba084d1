(** * C98: the files a run of the translator leaves behind *)
From Coq Require Import String Bool.
From Verif Require Import Tac MemModel MemProofs StringBuilderModel StringBuilderProofs FormatterModel FormatterSpec FormatterProofs RunModel RunSpec.
Import ListNotations.
Local Open Scope Z_scope.

(** ** Selection *)
Lemma starts_spec p : forall s, starts_with p s = true <-> exists r, s = p ++ r.
Proof.
  induction p as [|a p IH]; intros s; cbn [starts_with app]; [split; [intros _; exists s; reflexivity|reflexivity]|].
  destruct s as [|b s]; [split; [discriminate|intros (r & E); discriminate]|]. rewrite andb_true_iff, IH, Z.eqb_eq. split; [intros (-> & r & ->); exists r; reflexivity|intros (r & E); injection E as -> ->; split; [reflexivity|exists r; reflexivity]].
Qed.
Lemma contains_spec p s : contains_text p s = true <-> exists a b, s = a ++ p ++ b.
Proof.
  induction s as [|c s IH]; cbn [contains_text].
  - rewrite orb_false_r, starts_spec. split; [intros (r & E); exists [], r; exact E|intros (a & b & E); destruct a; [exists b; exact E|discriminate]].
  - rewrite orb_true_iff, starts_spec, IH. split.
    + intros [(r & E)|(a & b & ->)]; [exists [], r; exact E|exists (c :: a), b; reflexivity].
    + intros (a & b & E). destruct a as [|x a]; [left; exists b; exact E|injection E as -> ->; right; exists a, b; reflexivity].
Qed.
Lemma eligible_wanted t : eligible t = true <-> wanted t.
Proof.
  unfold eligible, wanted. rewrite !andb_true_iff, !negb_true_iff. rewrite <- !not_true_iff_false, starts_spec, contains_spec. split.
  - intros ((K & N) & S). split; [destruct (t_kind t); auto; discriminate|]. split; [intros n E; apply N; exists n; exact E|exact S].
  - intros (K & N & S). repeat split; [destruct K as [-> |[-> | ->]]; reflexivity|intros (n & E); exact (N n E)|exact S].
Qed.

Section Run.
Variable env : dotnet.
Variable add_headers : pass -> list call.
Variable visit_type : pass -> list type_def -> type_def -> list call * option exn.
Variable create_headers : pass -> list type_def -> list call * option exn.
Notation visits := (visits visit_type).
Notation process_types := (process_types env add_headers visit_type).
Notation process_modules := (process_modules env add_headers visit_type create_headers).
Notation ProcessModules := (ProcessModules env add_headers visit_type create_headers).
Notation produce := (produce env add_headers visit_type create_headers).

Lemma do_calls_app a : forall f b, do_calls env f (a ++ b) = (f <- do_calls env f a ;; do_calls env f b).
Proof. induction a as [|c a IH]; intros f b; cbn [app do_calls]; [reflexivity|]. destruct (do_call env f c) as [g| |]; cbn [bind]; [apply IH|reflexivity|reflexivity]. Qed.
Lemma perform_then f a b : perform env f (then_ a b) = (f <- perform env f a ;; perform env f b).
Proof.
  destruct a as (a & [e|]); unfold perform, then_; cbn [fst snd].
  - destruct (do_calls env f a); reflexivity.
  - rewrite do_calls_app. destruct (do_calls env f a); reflexivity.
Qed.
Lemma bind_assoc {A B C} (m : outcome A) (k : A -> outcome B) (h : B -> outcome C) : bind (bind m k) h = bind m (fun x => bind (k x) h).
Proof. destruct m; reflexivity. Qed.
Lemma bind_ext {A B} (m : outcome A) (k h : A -> outcome B) : (forall x, k x = h x) -> bind m k = bind m h.
Proof. intros E. destruct m; cbn; auto. Qed.

(** ** The file stays open *)
Lemma indent_file f g : Indent f = Ret g -> file g = file f.
Proof. unfold Indent. destruct (Substring tabs 0 (indentLevel f)); cbn [bind]; try discriminate. intros E. injection E as <-. reflexivity. Qed.
Lemma open_file f g : AddOpenBrace env f = Ret g -> file g = file f.
Proof.
  unfold AddOpenBrace, AppendIndentedLine. intros E. assert (F : file (if negb (onNewline f) then Newline env f else f) = file f) by (destruct (negb (onNewline f)); reflexivity). destruct (Indent _) as [h| |] eqn:I; cbn [bind] in E; try discriminate.
  injection E as <-. cbn [UpIndent set_level AppendLine Newline Append file]. rewrite (indent_file _ _ I). exact F.
Qed.
Lemma close_file f s g : AddCloseBrace env f s = Ret g -> file g = file f.
Proof.
  unfold AddCloseBrace, AppendIndented. intros E. assert (F : file (DownIndent (if negb (onNewline f) then Newline env f else f)) = file f) by (destruct (negb (onNewline f)); reflexivity). destruct (Indent _) as [h| |] eqn:I; cbn [bind] in E; try discriminate.
  injection E as <-. destruct s; cbn [Newline Append file]; rewrite (indent_file _ _ I); exact F.
Qed.
Lemma close_namespace_file f g : CloseNamespace env f = Ret g -> file g = file f.
Proof.
  unfold CloseNamespace. destruct (nameSpace f); [|intros E; injection E as <-; reflexivity]. destruct (AddCloseBrace env f false) as [h| |] eqn:C; cbn [bind]; try discriminate. intros E. injection E as <-. exact (close_file _ _ _ C).
Qed.
Lemma call_file f c g : do_call env f c = Ret g -> file g = file f.
Proof.
  destruct c as [t|t|t|t| |s|v|]; cbn [do_call]; intros E.
  - injection E as <-. reflexivity.
  - injection E as <-. reflexivity.
  - unfold AppendIndented in E. destruct (Indent f) as [h| |] eqn:I; cbn [bind] in E; try discriminate. injection E as <-. exact (indent_file _ _ I).
  - unfold AppendIndentedLine in E. destruct (Indent f) as [h| |] eqn:I; cbn [bind] in E; try discriminate. injection E as <-. exact (indent_file _ _ I).
  - exact (open_file _ _ E).
  - exact (close_file _ _ _ E).
  - unfold SetNamespace in E. destruct (nameSpace f).
    + destruct (text_eqb _ _); [injection E as <-; reflexivity|]. destruct (CloseNamespace env f) as [h| |] eqn:C; cbn [bind] in E; try discriminate. apply open_file in E. rewrite E. exact (close_namespace_file _ _ C).
    + apply open_file in E. rewrite E. reflexivity.
  - exact (close_namespace_file _ _ E).
Qed.
Lemma calls_file cs : forall f g, do_calls env f cs = Ret g -> file g = file f.
Proof.
  induction cs as [|c cs IH]; intros f g; cbn [do_calls]; [intros E; injection E as <-; reflexivity|]. destruct (do_call env f c) as [h| |] eqn:C; cbn [bind]; try discriminate. intros E. rewrite (IH _ _ E). exact (call_file _ _ _ C).
Qed.
Lemma perform_file f c g : perform env f c = Ret g -> file g = file f.
Proof. unfold perform. destruct (do_calls env f (fst c)) as [h| |] eqn:C; cbn [bind]; try discriminate. destruct (snd c); [discriminate|]. intros E. injection E as <-. exact (calls_file _ _ _ C). Qed.

(** ** One pass *)
Lemma types_more p path l s : selected l s -> forall visited d f, visited <> [] ->
  process_types p path visited l d f = (d, f <- perform env f (visits p visited s) ;; Ret (f, visited ++ s)).
Proof.
  induction 1 as [|t l s W _ IH|t l s W _ IH]; intros visited d f N; cbn [RunModel.process_types RunSpec.visits].
  - rewrite app_nil_r. reflexivity.
  - rewrite (proj2 (eligible_wanted t) W). destruct visited as [|v visited]; [congruence|]. cbn [bind]. rewrite perform_then, bind_assoc.
    destruct (perform env f (visit_type p (v :: visited) t)) as [g| |]; cbn [bind]; [|reflexivity|reflexivity]. rewrite IH by (destruct visited; discriminate). rewrite <- app_assoc. reflexivity.
  - destruct (eligible t) eqn:E; [apply eligible_wanted in E; contradiction|]. apply IH, N.
Qed.
Lemma types_none p path l : selected l [] -> forall d f, process_types p path [] l d f = (d, Ret (f, [])).
Proof.
  intros S. remember [] as s eqn:Es in S. induction S as [|t l s W _ IH|t l s W _ IH]; intros d f; cbn [RunModel.process_types]; [reflexivity|discriminate Es|].
  destruct (eligible t) eqn:E; [apply eligible_wanted in E; contradiction|]. apply IH, Es.
Qed.
Definition written (p : pass) (path : text) (ts : list type_def) (f : formatter) : outcome formatter :=
  f <- set_OutputName env f path ;; f <- do_calls env f (add_headers p) ;; perform env f (visits p [] ts).
Lemma open_closed d f path : file f = None -> OpenFile env d f path = (put d path [], set_OutputName env f path).
Proof. intros E. unfold OpenFile, CloseFile. rewrite E. reflexivity. Qed.
Lemma types_some p path l s : selected l s -> s <> [] -> forall d f, file f = None ->
  process_types p path [] l d f = (put d path [], f <- written p path s f ;; Ret (f, s)).
Proof.
  induction 1 as [|t l s W S IH|t l s W S IH]; intros N d f F; cbn [RunModel.process_types].
  - congruence.
  - rewrite (proj2 (eligible_wanted t) W), (open_closed d f path F). unfold written. cbn [RunSpec.visits app]. destruct (set_OutputName env f path) as [g| |]; cbn [bind]; [|reflexivity|reflexivity].
    destruct (do_calls env g (add_headers p)) as [h| |]; cbn [bind]; [|reflexivity|reflexivity]. rewrite perform_then, bind_assoc. destruct (perform env h (visit_type p [] t)) as [k| |]; cbn [bind]; [|reflexivity|reflexivity].
    rewrite (types_more p path l s S) by discriminate. reflexivity.
  - destruct (eligible t) eqn:E; [apply eligible_wanted in E; contradiction|]. apply IH; assumption.
Qed.
Lemma set_name_file f path g : set_OutputName env f path = Ret g -> file g = Some path.
Proof. unfold set_OutputName. destruct (Close env f); cbn [bind]; try discriminate. intros E. injection E as <-. reflexivity. Qed.
Lemma no_main l : Forall (fun m => is_main m = false) l -> forall p path v d f, process_modules p path v l d f = CloseFile env d f.
Proof. induction 1 as [|m l M _ IH]; intros p path v d f; cbn [RunModel.process_modules]; [reflexivity|]. rewrite M. apply IH. Qed.
Lemma skip_modules a : Forall (fun m => is_main m = false) a -> forall l p path v d f, process_modules p path v (a ++ l) d f = process_modules p path v l d f.
Proof. induction 1 as [|m a M _ IH]; intros l p path v d f; cbn [app RunModel.process_modules]; [reflexivity|]. rewrite M. apply IH. Qed.
Definition file_state (p : pass) (path : text) (ts : list type_def) (f : formatter) : text := match produce f path p ts with Ret (t, _) => t | _ => [] end.
Lemma close_ret f name g : file f = Some name -> CloseNamespace env f = Ret g -> exists h, Close env f = Ret h /\ file h = None.
Proof. intros F C. unfold Close. rewrite F, C. cbn [bind]. eexists. split; reflexivity. Qed.
Lemma put_put d path a b q : put (put d path a) path b q = put d path b q.
Proof. unfold put. destruct (text_eqb q path); reflexivity. Qed.
Ltac stopped := right; eexists; split; [reflexivity|]; split; [discriminate|]; eexists; split; [reflexivity|]; split; [discriminate|intros; split; intros X; solve [discriminate X|injection X as <-; reflexivity]].
(** The disk and the writer after a pass over [ts], with the file closed before. *)
Lemma pass_result ms ts p path d f : program_types ms ts -> ts <> [] -> file f = None ->
  (exists t g, produce f path p ts = Ret (t, g) /\ file g = None /\ exists d', ProcessModules p path ms d f = (d', Ret g) /\ forall q, d' q = put d path t q) \/
  (exists r, produce f path p ts = r /\ (forall x, r <> Ret x) /\ exists r', ProcessModules p path ms d f = (put d path [], r') /\ (forall x, r' <> Ret x) /\ (forall e, r' = Exn e <-> r = Exn e)).
Proof.
  intros (a & m & b & -> & M & NM & S) N F. apply Forall_app in NM. destruct NM as (NA & NB). unfold RunModel.ProcessModules. rewrite (skip_modules a NA). cbn [RunModel.process_modules]. rewrite M, (types_some p path _ ts S N d f F).
  unfold RunSpec.produce. assert (PE : forall g, (f0 <- do_calls env g (fst (pass_calls add_headers visit_type create_headers p ts)) ;; match snd (pass_calls add_headers visit_type create_headers p ts) with Some e => Exn e | None => g <- CloseNamespace env f0 ;; f1 <- Close env f0 ;; Ret (buffer g, f1) end) =
     (f0 <- perform env g (pass_calls add_headers visit_type create_headers p ts) ;; g <- CloseNamespace env f0 ;; f1 <- Close env f0 ;; Ret (buffer g, f1))).
  { intros g. unfold perform. rewrite bind_assoc. apply bind_ext. intros h. destruct (snd _); reflexivity. }
  unfold written. destruct (set_OutputName env f path) as [g0| |] eqn:SN; cbn [bind].
  2:{ stopped. }
  2:{ stopped. }
  rewrite PE. unfold pass_calls. rewrite perform_then. replace (perform env g0 (add_headers p, None)) with (do_calls env g0 (add_headers p)) by (unfold perform; cbn [fst snd]; destruct (do_calls env g0 (add_headers p)); reflexivity). pose proof (set_name_file _ _ _ SN) as F0.
  destruct (do_calls env g0 (add_headers p)) as [g1| |] eqn:DC; cbn [bind].
  2:{ stopped. }
  2:{ stopped. }
  pose proof (calls_file _ _ _ DC) as F1. rewrite perform_then. destruct (perform env g1 (visits p [] ts)) as [g2| |] eqn:V; cbn [bind].
  2:{ stopped. }
  2:{ stopped. }
  pose proof (perform_file _ _ _ V) as F2. destruct (perform env g2 (create_headers p ts)) as [g3| |] eqn:C; cbn [bind].
  2:{ stopped. }
  2:{ stopped. }
  pose proof (perform_file _ _ _ C) as F3. rewrite F2, F1, F0 in F3. rewrite (no_main b NB). unfold CloseFile. rewrite F3. destruct (CloseNamespace env g3) as [g4| |] eqn:CN; cbn [bind].
  - destruct (close_ret _ _ _ F3 CN) as (h & -> & Fh). cbn [bind]. left. exists (buffer g4), h. split; [reflexivity|]. split; [exact Fh|]. eexists. split; [reflexivity|]. intros q. apply put_put.
  - stopped.
  - stopped.
Qed.
End Run.

(** ** C98: paths *)
Lemma last_index_spec s : forall i c, 0 <= i -> (existsb (Z.eqb c) s = false -> last_index_from i c s = -1) /\
  (forall a b, s = a ++ c :: b -> existsb (Z.eqb c) b = false -> last_index_from i c s = i + zlen a).
Proof.
  induction s as [|x s IH]; intros i c I; (split; [intros H|intros a b E H]); cbn [last_index_from existsb] in *; [reflexivity|destruct a; discriminate| |].
  - apply orb_false_iff in H. destruct H as (H1 & H2). destruct (IH (i + 1) c) as (K & _); [lia|]. rewrite (K H2), (Z.eqb_sym x c), H1. reflexivity.
  - destruct a as [|y a]; cbn [app] in E; injection E as -> ->.
    + destruct (IH (i + 1) c) as (K & _); [lia|]. rewrite (K H), !Z.eqb_refl. unfold zlen. cbn [length]. lia.
    + destruct (IH (i + 1) c) as (_ & K); [lia|]. rewrite (K a b eq_refl H). replace (zlen (y :: a)) with (1 + zlen a) by (unfold zlen; cbn [length]; lia). assert (0 <= zlen a) by apply zlen_nonneg. destruct (i + 1 + zlen a =? -1) eqn:Q; lia.
Qed.
Lemma take_app (a b : text) : take (zlen a) (a ++ b) = a.
Proof. unfold take, zlen. rewrite Nat2Z.id, firstn_app, Nat.sub_diag, firstn_all. apply app_nil_r. Qed.
Lemma substring_prefix (a b : text) : Substring (a ++ b) 0 (zlen a) = Ret a.
Proof.
  unfold Substring. assert (0 <= zlen a) by apply zlen_nonneg. assert (0 <= zlen b) by apply zlen_nonneg. rewrite throw_if_false by (rewrite zlen_app; lia). rewrite bind_ret. f_equal. change (drop 0 (a ++ b)) with (a ++ b). apply take_app.
Qed.
(** The output goes to the directory `generated` beside the translated file.  Missing: directories with both separators,
    with a backslash last (refuted below). *)
Theorem C98_path_partial : forall dir name, directory_of dir name -> ~ (In 47 dir /\ exists d, dir = d ++ [92]) ->
  GetPathToAssembly (dir ++ name) = Ret (dir ++ T "generated/Translated").
Proof.
  intros dir name (N & D) X. unfold GetPathToAssembly.
  assert (NO : forall c, separator c = true -> existsb (Z.eqb c) name = false). { intros c S. apply not_true_is_false. intros E. apply existsb_exists in E. destruct E as (x & I & E). apply Z.eqb_eq in E. subst x. rewrite forallb_forall in N. specialize (N c I). rewrite S in N. discriminate. }
  assert (G : forall c, separator c = true -> forall d, dir = d ++ [c] -> LastIndexOf c (dir ++ name) + 1 = zlen dir).
  { intros c S d ->. unfold LastIndexOf. destruct (last_index_spec ((d ++ [c]) ++ name) 0 c ltac:(lia)) as (_ & K). rewrite (K d name); [|rewrite <- app_assoc; reflexivity|apply NO, S]. rewrite zlen_app. unfold zlen at 3. cbn. lia. }
  assert (IDX : (if contains_char 47 (dir ++ name) then LastIndexOf 47 (dir ++ name) else LastIndexOf 92 (dir ++ name)) + 1 = zlen dir).
  { unfold contains_char. rewrite existsb_app, (NO 47 eq_refl), orb_false_r. destruct D as [-> |(d & c & E & S)].
    - cbn [existsb app]. unfold LastIndexOf. destruct (last_index_spec name 0 92 ltac:(lia)) as (K & _). rewrite K; [reflexivity|apply NO; reflexivity].
    - unfold separator in S. apply orb_true_iff in S. destruct S as [S|S]; apply Z.eqb_eq in S; subst c.
      + replace (existsb (Z.eqb 47) dir) with true; [apply (G 47 eq_refl d E)|]. symmetry. apply existsb_exists. exists 47. split; [rewrite E; apply in_or_app; right; left; reflexivity|reflexivity].
      + replace (existsb (Z.eqb 47) dir) with false; [apply (G 92 eq_refl d E)|]. symmetry. apply not_true_is_false. intros Q. apply existsb_exists in Q. destruct Q as (x & I & Q). apply Z.eqb_eq in Q. subst x. apply X. split; [exact I|exists d; exact E]. }
  rewrite IDX, substring_prefix. reflexivity.
Qed.
(** The output of a file in a directory a/b\ goes to a/generated. *)
Theorem C98_path_refuted : forall a b name, forallb (fun c => negb (separator c)) b = true -> forallb (fun c => negb (separator c)) name = true ->
  GetPathToAssembly ((a ++ [47] ++ b ++ [92]) ++ name) = Ret (a ++ T "/generated/Translated").
Proof.
  intros a b name B N. unfold GetPathToAssembly.
  assert (R : existsb (Z.eqb 47) (b ++ [92] ++ name) = false). { apply not_true_is_false. intros E. apply existsb_exists in E. destruct E as (x & I & E). apply Z.eqb_eq in E. subst x. apply in_app_iff in I. destruct I as [I|I]; [rewrite forallb_forall in B; specialize (B 47 I); discriminate|]. apply in_app_iff in I. destruct I as [[I|[]]|I]; [discriminate|rewrite forallb_forall in N; specialize (N 47 I); discriminate]. }
  replace ((a ++ [47] ++ b ++ [92]) ++ name) with ((a ++ [47]) ++ (b ++ [92] ++ name)) by (rewrite <- !app_assoc; reflexivity).
  replace (contains_char 47 _) with true by (symmetry; apply existsb_exists; exists 47; split; [apply in_or_app; left; apply in_or_app; right; left; reflexivity|reflexivity]).
  unfold LastIndexOf. destruct (last_index_spec ((a ++ [47]) ++ (b ++ [92] ++ name)) 0 47 ltac:(lia)) as (_ & K). rewrite (K a (b ++ [92] ++ name)); [|rewrite <- app_assoc; reflexivity|exact R].
  replace (0 + zlen a + 1) with (zlen (a ++ [47])) by (rewrite zlen_app; reflexivity). rewrite substring_prefix, bind_ret. rewrite <- app_assoc. reflexivity.
Qed.

(** ** C98: files *)
Section Files.
Variable env : dotnet.
Variable add_headers : pass -> list call.
Variable visit_type : pass -> list type_def -> type_def -> list call * option exn.
Variable create_headers : pass -> list type_def -> list call * option exn.
Variable describe : exn -> text.
Notation produce := (produce env add_headers visit_type create_headers).
Notation Main := (Main env add_headers visit_type create_headers describe).
Notation ProcessModules := (ProcessModules env add_headers visit_type create_headers).

Lemma put_other d path c q : q <> path -> put d path c q = d q.
Proof. intros N. unfold put. destruct (text_eqb q path) eqn:E; [apply text_eqb_eq in E; contradiction|reflexivity]. Qed.
Lemma put_same d path c : put d path c path = Some c.
Proof. unfold put. rewrite text_eqb_refl. reflexivity. Qed.
Lemma put_ext d d' path c : (forall q, d q = d' q) -> forall q, put d path c q = put d' path c q.
Proof. intros E q. unfold put. destruct (text_eqb q path); [reflexivity|apply E]. Qed.
(** A run that ends without an exception leaves the three files of this run: their texts do not depend on what was on the
    disk, and nothing else changes. *)
Theorem C98_success : forall arg base ms ts t1 f1 t2 f2 t3 f3, GetPathToAssembly arg = Ret base -> program_types ms ts -> ts <> [] ->
  produce new_formatter (base ++ T "Protos.h") Protos ts = Ret (t1, f1) -> produce f1 (base ++ T "Header.h") Header ts = Ret (t2, f2) -> produce f2 (base ++ T ".cpp") Source ts = Ret (t3, f3) ->
  forall d path, Main [arg] (Ret ms) d path =
    if text_eqb path (base ++ T "Protos.h") then Some t1 else if text_eqb path (base ++ T "Header.h") then Some t2 else if text_eqb path (base ++ T ".cpp") then Some t3 else d path.
Proof.
  intros arg base ms ts t1 f1 t2 f2 t3 f3 G P N E1 E2 E3 d path. unfold RunModel.Main. rewrite G. cbn [RunModel.process_passes extension].
  destruct (pass_result env add_headers visit_type create_headers ms ts Protos (base ++ T "Protos.h") d new_formatter P N eq_refl) as [(u1 & g1 & F1 & C1 & d1 & R1 & D1)|(r & F1 & X & _)]; [|rewrite E1 in F1; subst r; destruct (X _ eq_refl)].
  rewrite E1 in F1. injection F1 as <- <-. rewrite R1.
  destruct (pass_result env add_headers visit_type create_headers ms ts Header (base ++ T "Header.h") d1 f1 P N C1) as [(u2 & g2 & F2 & C2 & d2 & R2 & D2)|(r & F2 & X & _)]; [|rewrite E2 in F2; subst r; destruct (X _ eq_refl)].
  rewrite E2 in F2. injection F2 as <- <-. rewrite R2.
  destruct (pass_result env add_headers visit_type create_headers ms ts Source (base ++ T ".cpp") d2 f2 P N C2) as [(u3 & g3 & F3 & C3 & d3 & R3 & D3)|(r & F3 & X & _)]; [|rewrite E3 in F3; subst r; destruct (X _ eq_refl)].
  rewrite E3 in F3. injection F3 as <- <-. rewrite R3. rewrite D3, (put_ext _ _ _ _ D2), (put_ext _ (put (put d (base ++ T "Protos.h") t1) (base ++ T "Header.h") t2)). 2:{ intros q. apply put_ext. exact D1. }
  unfold put. destruct (text_eqb path (base ++ T ".cpp")) eqn:Q3; [apply text_eqb_eq in Q3; subst path|]. 
  - destruct (text_eqb (base ++ T ".cpp") (base ++ T "Protos.h")) eqn:Q1; [apply text_eqb_eq, app_inv_head in Q1; discriminate|]. destruct (text_eqb (base ++ T ".cpp") (base ++ T "Header.h")) eqn:Q2; [apply text_eqb_eq, app_inv_head in Q2; discriminate|reflexivity].
  - destruct (text_eqb path (base ++ T "Header.h")) eqn:Q2; [|reflexivity]. apply text_eqb_eq in Q2. subst path. destruct (text_eqb (base ++ T "Header.h") (base ++ T "Protos.h")) eqn:Q1; [apply text_eqb_eq, app_inv_head in Q1; discriminate|reflexivity].
Qed.
(** So after any history of runs, successful or not, in any directories, a successful run leaves the same three files. *)
Theorem C98_history : forall arg base ms ts t1 f1 t2 f2 t3 f3, GetPathToAssembly arg = Ret base -> program_types ms ts -> ts <> [] ->
  produce new_formatter (base ++ T "Protos.h") Protos ts = Ret (t1, f1) -> produce f1 (base ++ T "Header.h") Header ts = Ret (t2, f2) -> produce f2 (base ++ T ".cpp") Source ts = Ret (t3, f3) ->
  forall (history : list (list text * outcome (list module))) d, let d' := fold_left (fun d r => Main (fst r) (snd r) d) history d in
    Main [arg] (Ret ms) d' (base ++ T "Protos.h") = Some t1 /\ Main [arg] (Ret ms) d' (base ++ T "Header.h") = Some t2 /\ Main [arg] (Ret ms) d' (base ++ T ".cpp") = Some t3.
Proof.
  intros arg base ms ts t1 f1 t2 f2 t3 f3 G P N E1 E2 E3 h d d'. rewrite !(C98_success arg base ms ts t1 f1 t2 f2 t3 f3 G P N E1 E2 E3 d'). rewrite !text_eqb_refl.
  replace (text_eqb (base ++ T "Header.h") (base ++ T "Protos.h")) with false by (symmetry; apply not_true_is_false; intros Q; apply text_eqb_eq, app_inv_head in Q; discriminate).
  replace (text_eqb (base ++ T ".cpp") (base ++ T "Protos.h")) with false by (symmetry; apply not_true_is_false; intros Q; apply text_eqb_eq, app_inv_head in Q; discriminate).
  replace (text_eqb (base ++ T ".cpp") (base ++ T "Header.h")) with false by (symmetry; apply not_true_is_false; intros Q; apply text_eqb_eq, app_inv_head in Q; discriminate).
  repeat split.
Qed.
(** What an exception leaves: the files of the passes before it, an empty file for the pass it ended, and the old files of
    the passes after it; the exception is in the log. *)
Definition failed_run (arg : text) (ms : list module) (d : disk) (base : text) (protos header source : option text) (e : exn) : Prop :=
  Main [arg] (Ret ms) d (base ++ T "Protos.h") = protos /\ Main [arg] (Ret ms) d (base ++ T "Header.h") = header /\ Main [arg] (Ret ms) d (base ++ T ".cpp") = source /\
  Main [arg] (Ret ms) d (base ++ T ".err") = Some (read d (base ++ T ".err") ++ describe e).
Ltac apart := match goal with |- context [text_eqb (?b ++ ?x) (?b ++ ?y)] => let Q := fresh in destruct (text_eqb (b ++ x) (b ++ y)) eqn:Q; [apply text_eqb_eq, app_inv_head in Q; discriminate|clear Q] end.
Theorem C98_failure : forall arg base ms ts e, GetPathToAssembly arg = Ret base -> program_types ms ts -> ts <> [] ->
  let P := base ++ T "Protos.h" in let H := base ++ T "Header.h" in let C := base ++ T ".cpp" in
  (produce new_formatter P Protos ts = Exn e -> forall d, failed_run arg ms d base (Some []) (d H) (d C) e) /\
  (forall t1 f1, produce new_formatter P Protos ts = Ret (t1, f1) -> produce f1 H Header ts = Exn e -> forall d, failed_run arg ms d base (Some t1) (Some []) (d C) e) /\
  (forall t1 f1 t2 f2, produce new_formatter P Protos ts = Ret (t1, f1) -> produce f1 H Header ts = Ret (t2, f2) -> produce f2 C Source ts = Exn e -> forall d, failed_run arg ms d base (Some t1) (Some t2) (Some []) e).
Proof.
  intros arg base ms ts e G PT N P H C. unfold failed_run, RunModel.Main. rewrite G. cbn [RunModel.process_passes extension]. fold P H C.
  split; [|split].
  - intros E1 d. destruct (pass_result env add_headers visit_type create_headers ms ts Protos P d new_formatter PT N eq_refl) as [(u1 & g1 & F1 & _)|(r & F1 & X & r' & R1 & Y & Z)]; [congruence|]. rewrite R1. rewrite E1 in F1. subst r. rewrite (proj2 (Z e) eq_refl).
    unfold put, read, P, H, C. repeat apart. rewrite !text_eqb_refl. repeat split.
  - intros t1 f1 E1 E2 d. destruct (pass_result env add_headers visit_type create_headers ms ts Protos P d new_formatter PT N eq_refl) as [(u1 & g1 & F1 & C1 & d1 & R1 & D1)|(r & F1 & X & _)]; [|rewrite E1 in F1; subst r; destruct (X _ eq_refl)].
    rewrite E1 in F1. injection F1 as <- <-. rewrite R1.
    destruct (pass_result env add_headers visit_type create_headers ms ts Header H d1 f1 PT N C1) as [(u2 & g2 & F2 & _)|(r & F2 & X & r' & R2 & Y & Z)]; [congruence|]. rewrite R2. rewrite E2 in F2. subst r. rewrite (proj2 (Z e) eq_refl).
    unfold put, read in *. rewrite !D1. unfold P, H, C. repeat apart. rewrite !text_eqb_refl. repeat split.
  - intros t1 f1 t2 f2 E1 E2 E3 d. destruct (pass_result env add_headers visit_type create_headers ms ts Protos P d new_formatter PT N eq_refl) as [(u1 & g1 & F1 & C1 & d1 & R1 & D1)|(r & F1 & X & _)]; [|rewrite E1 in F1; subst r; destruct (X _ eq_refl)].
    rewrite E1 in F1. injection F1 as <- <-. rewrite R1.
    destruct (pass_result env add_headers visit_type create_headers ms ts Header H d1 f1 PT N C1) as [(u2 & g2 & F2 & C2 & d2 & R2 & D2)|(r & F2 & X & _)]; [|rewrite E2 in F2; subst r; destruct (X _ eq_refl)].
    rewrite E2 in F2. injection F2 as <- <-. rewrite R2.
    destruct (pass_result env add_headers visit_type create_headers ms ts Source C d2 f2 PT N C2) as [(u3 & g3 & F3 & _)|(r & F3 & X & r' & R3 & Y & Z)]; [congruence|]. rewrite R3. rewrite E3 in F3. subst r. rewrite (proj2 (Z e) eq_refl).
    unfold put, read in *. rewrite !D2, !D1. unfold P, H, C. repeat apart. rewrite !text_eqb_refl. repeat split.
Qed.
(** Without an argument, with several, or when the file cannot be read, no output file changes. *)
Theorem C98_usage : forall args load d, length args <> 1%nat -> Main args load d = d.
Proof. intros [|a [|b args]] load d N; [reflexivity|cbn in N; lia|reflexivity]. Qed.
Theorem C98_unreadable : forall arg base e d path, GetPathToAssembly arg = Ret base -> Main [arg] (Exn e) d path = if text_eqb path (base ++ T ".err") then Some (read d (base ++ T ".err") ++ describe e) else d path.
Proof. intros arg base e d path G. unfold RunModel.Main. rewrite G. reflexivity. Qed.

(** ** What fails *)
(** A run that fails in the second pass leaves files of two different translations: the new prototypes, an empty header
    and the old source file. *)
Theorem C98_mixed_refuted : forall arg base ms ts e t1 f1 d old, GetPathToAssembly arg = Ret base -> program_types ms ts -> ts <> [] ->
  produce new_formatter (base ++ T "Protos.h") Protos ts = Ret (t1, f1) -> produce f1 (base ++ T "Header.h") Header ts = Exn e -> d (base ++ T ".cpp") = Some old ->
  Main [arg] (Ret ms) d (base ++ T "Protos.h") = Some t1 /\ Main [arg] (Ret ms) d (base ++ T "Header.h") = Some [] /\ Main [arg] (Ret ms) d (base ++ T ".cpp") = Some old.
Proof. intros arg base ms ts e t1 f1 d old G P N E1 E2 O. destruct (proj1 (proj2 (C98_failure arg base ms ts e G P N)) t1 f1 E1 E2 d) as (A & B & C & _). rewrite O in C. auto. Qed.
(** A program without types to translate is translated successfully, and the output of an older run stays. *)
Theorem C98_nothing_refuted : forall arg base ms d, GetPathToAssembly arg = Ret base -> program_types ms [] -> (forall p, create_headers p [] = ([], None) \/ create_headers p [] = ([LeaveNamespace], None)) -> Main [arg] (Ret ms) d = d.
Proof.
  intros arg base ms d G (a & m & b & -> & M & NM & S) CH. apply Forall_app in NM. destruct NM as (NA & NB). unfold RunModel.Main. rewrite G. cbn [RunModel.process_passes].
  assert (PM : forall p path d, ProcessModules p path (a ++ m :: b) d new_formatter = (d, Ret new_formatter)).
  { intros p path d'. unfold RunModel.ProcessModules. rewrite (skip_modules env add_headers visit_type create_headers a NA). cbn [RunModel.process_modules]. rewrite M, (types_none env add_headers visit_type p path _ S). replace (perform env new_formatter (create_headers p [])) with (@Ret formatter new_formatter) by (destruct (CH p) as [-> | ->]; reflexivity). rewrite (no_main env add_headers visit_type create_headers b NB). reflexivity. }
  rewrite !PM. reflexivity.
Qed.
(** Two programs in one directory are translated into the same files: the later run replaces the earlier one's output. *)
Theorem C98_same_directory_refuted : forall dir name name', directory_of dir name -> directory_of dir name' -> ~ (In 47 dir /\ exists d, dir = d ++ [92]) ->
  GetPathToAssembly (dir ++ name) = GetPathToAssembly (dir ++ name').
Proof. intros dir name name' D D' X. rewrite (C98_path_partial dir name D X), (C98_path_partial dir name' D' X). reflexivity. Qed.
(** The log is never cleared: after a successful run it still reports the errors of older runs. *)
Theorem C98_log_refuted : forall arg base ms ts t1 f1 t2 f2 t3 f3 d, GetPathToAssembly arg = Ret base -> program_types ms ts -> ts <> [] ->
  produce new_formatter (base ++ T "Protos.h") Protos ts = Ret (t1, f1) -> produce f1 (base ++ T "Header.h") Header ts = Ret (t2, f2) -> produce f2 (base ++ T ".cpp") Source ts = Ret (t3, f3) ->
  Main [arg] (Ret ms) d (base ++ T ".err") = d (base ++ T ".err").
Proof. intros arg base ms ts t1 f1 t2 f2 t3 f3 d G P N E1 E2 E3. rewrite (C98_success arg base ms ts t1 f1 t2 f2 t3 f3 G P N E1 E2 E3 d). repeat apart. reflexivity. Qed.
End Files.
Print Assumptions C98_success.
Print Assumptions C98_failure.
Print Assumptions C98_history.
Print Assumptions C98_path_partial.
(** Two runs in one directory: the first succeeds, the second fails in the header pass. *)
Definition example_visit (p : pass) (visited : list type_def) (t : type_def) : list call * option exn :=
  ([EnterNamespace (t_space t); WriteLine (extension p ++ t_name t)], match p with Header => if text_eqb (t_name t) (T "Bad") then Some InvalidOperationException else None | _ => None end).
Definition example_main := Main (mk_dotnet [10] (fun c => (97 <=? c) && (c <=? 122))) (fun _ => [WriteLine (T "//")]) example_visit (fun _ _ => ([], None)) (fun _ => T "error").
Example C98_example :
  let good := [mk_module false [mk_type KClass (T "Library") []]; mk_module true [mk_type KOther (T "IA") (T "N"); mk_type KClass (T "Good") (T "N"); mk_type KClass (T "<Module>") []]] in
  let bad := [mk_module true [mk_type KClass (T "Bad") (T "N")]] in
  let base := T "dir/generated/Translated" in
  program_types good [mk_type KClass (T "Good") (T "N")] /\ program_types bad [mk_type KClass (T "Bad") (T "N")] /\
  directory_of (T "dir/") (T "a.dll") /\ GetPathToAssembly (T "dir/a.dll") = Ret base /\
  let d := example_main [T "dir/a.dll"] (Ret good) (fun _ => None) in
  d (base ++ T ".cpp") = Some (T "//" ++ [10] ++ T "namespace N_NS" ++ [10] ++ T "{" ++ [10] ++ T ".cppGood" ++ [10] ++ T "}" ++ [10]) /\ d (base ++ T ".err") = None /\
  let d' := example_main [T "dir/b.dll"] (Ret bad) d in
  d' (base ++ T ".cpp") = d (base ++ T ".cpp") /\ d' (base ++ T "Header.h") = Some [] /\ d' (base ++ T "Protos.h") <> d (base ++ T "Protos.h") /\ d' (base ++ T ".err") = Some (T "error").
Proof.
  cbv zeta. split; [|split; [|split; [|split; [reflexivity|]]]].
  - exists [mk_module false [mk_type KClass (T "Library") []]]. eexists. exists []. split; [reflexivity|]. split; [reflexivity|]. split; [repeat constructor|]. cbn [top_types].
    apply S_skip; [rewrite <- eligible_wanted; vm_compute; discriminate|]. apply S_take; [rewrite <- eligible_wanted; vm_compute; reflexivity|]. apply S_skip; [rewrite <- eligible_wanted; vm_compute; discriminate|]. apply S_nil.
  - exists []. eexists. exists []. split; [reflexivity|]. split; [reflexivity|]. split; [repeat constructor|]. cbn [top_types]. apply S_take; [rewrite <- eligible_wanted; vm_compute; reflexivity|]. apply S_nil.
  - split; [reflexivity|]. right. exists (T "dir"), 47. split; reflexivity.
  - vm_compute. repeat split; try reflexivity. discriminate.
Qed.
