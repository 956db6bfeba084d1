(** * C34: trimming white space *)
From Verif Require Import Base Tac StringModel StringSpec StringProofs StringProperties.

(** The white space characters of .NET (Char.IsWhiteSpace). *)
Definition dotnet_white : list Z :=
  [9; 10; 11; 12; 13; 32; 133; 160; 5760; 8192; 8193; 8194; 8195; 8196; 8197; 8198; 8199; 8200; 8201; 8202; 8232; 8233; 8239; 8287; 12288].
(** Those on which the library differs: NEL, OGHAM SPACE MARK, LINE and PARAGRAPH SEPARATOR, NARROW
    NO-BREAK SPACE, MEDIUM MATHEMATICAL SPACE (not trimmed), ZERO WIDTH SPACE and BYTE ORDER MARK
    (trimmed). *)
Definition disputed : list Z := [133; 5760; 8232; 8233; 8239; 8287; 8203; 65279].
Lemma white_agree c : ~ In c disputed -> (In c WhiteSpaceChars <-> In c dotnet_white).
Proof.
  intros N. unfold disputed, WhiteSpaceChars, dotnet_white in *. cbn [In] in *. split; intros H; repeat (destruct H as [<-|H]; [tauto || (exfalso; tauto)|]); destruct H.
Qed.
Lemma trimmed_agree front back s r : Forall (fun c => ~ In c disputed) s -> trimmed WhiteSpaceChars front back s r -> trimmed dotnet_white front back s r.
Proof.
  intros N (pre & post & -> & A & B & C & D & E & F). apply Forall_app in N. destruct N as (N1 & N2). apply Forall_app in N2. destruct N2 as (N2 & N3).
  assert (X : forall l, Forall (fun c => ~ In c disputed) l -> Forall (fun c => In c WhiteSpaceChars) l -> Forall (fun c => In c dotnet_white) l).
  { intros l Hl Hw. rewrite Forall_forall in *. intros c Hc. apply white_agree; auto. }
  exists pre, post. split; [reflexivity|]. split; [apply X; assumption|]. split; [apply X; assumption|]. split; [exact C|]. split; [exact D|]. rewrite Forall_forall in N2.
  split; intros Hb c t -> Hc; [apply (E Hb c t eq_refl)|apply (F Hb c t eq_refl)]; apply white_agree; try exact Hc; apply N2; [left; reflexivity|apply in_or_app; right; left; reflexivity].
Qed.
(** Without an array, or with an empty one, Trim, TrimStart and TrimEnd take away exactly the white
    space of .NET, on strings without the eight disputed characters. *)
Theorem C34_white_space_partial : forall s arr, arr = None \/ arr = Some [] -> zlen s < 2147483647 -> Forall (fun c => ~ In c disputed) s ->
  (exists r, Trim s arr = Ret r /\ trimmed dotnet_white true true s r) /\
  (exists r, TrimStart s arr = Ret r /\ trimmed dotnet_white true false s r) /\
  (exists r, TrimEnd s arr = Ret r /\ trimmed dotnet_white false true s r).
Proof.
  intros s arr Ha Hs N. assert (Z0 : ~ (In 0 s /\ In 0 (separators arr))). { intros (_ & H). destruct Ha as [-> | ->]; cbn in H; repeat (destruct H as [H|H]; [discriminate|]); exact H. }
  assert (E : separators arr = WhiteSpaceChars) by (destruct Ha as [-> | ->]; reflexivity).
  destruct (C34_trim_partial s arr Hs Z0) as ((r1 & E1 & T1) & (r2 & E2 & T2) & (r3 & E3 & T3)). rewrite E in *.
  split; [exists r1|split; [exists r2|exists r3]]; (split; [assumption|]); apply trimmed_agree; assumption.
Qed.
(** A given array means its characters, whatever they are. *)
Theorem C34_given_separators_partial : forall s c l, zlen s < 2147483647 -> ~ (In 0 s /\ In 0 (c :: l)) ->
  (exists r, Trim s (Some (c :: l)) = Ret r /\ trimmed (c :: l) true true s r) /\
  (exists r, TrimStart s (Some (c :: l)) = Ret r /\ trimmed (c :: l) true false s r) /\
  (exists r, TrimEnd s (Some (c :: l)) = Ret r /\ trimmed (c :: l) false true s r).
Proof. intros s c l Hs Hz. apply (C34_trim_partial s (Some (c :: l)) Hs Hz). Qed.
Theorem C34_white_space_refuted : Trim [133] None = Ret [133] /\ In 133 dotnet_white /\ Trim [8203] None = Ret [] /\ ~ In 8203 dotnet_white.
Proof. split; [reflexivity|]. split; [cbn; tauto|]. split; [reflexivity|]. cbn. intros H. repeat (destruct H as [H|H]; [discriminate|]). exact H. Qed.
Example C34_white_case : Trim [12288; 97; 9; 98; 160] (Some []) = Ret [97; 9; 98] /\ TrimStart [32; 97; 32] None = Ret [97; 32].
Proof. split; reflexivity. Qed.
Print Assumptions C34_white_space_partial.
