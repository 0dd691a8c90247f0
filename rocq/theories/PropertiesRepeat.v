(** C142: an upload command that stopped half-way is completed by repeating it. *)
From Verif Require Import ModelCodec ModelCli ModelPrompts ModelWorkflow PropertiesCli PropertiesPrompts.
From Verif Require Import Base ModelPrincipal ModelState ModelIcrc7 ModelIcrc37 ModelManagement ModelLifecycle
  ModelQueries ModelStep ModelHttp ProofsItems ProofsManage ProofsMicro Spec ProofsCore ProofsTime ProofsLock ProofsUploads Scenario
  PropertiesMeta PropertiesUploads PropertiesHttp PropertiesLive PropertiesUploadLive PropertiesWorkflow.

(** ** What an interrupted command leaves behind *)

(** An unfinished upload at [path], announced with the hash of [file]; nobody is about to cancel it. *)
Definition announced (digest : bytes -> bytes) (path : string) (file : bytes) (s : state) (w : storage) : Prop :=
  (exists u k, files s !! path = Some u /\ u_state u <> UFinalized /\ w !! (u_canister u, path) = Some k /\ k_hash k = digest file) /\
  forall id who, pend s !! id <> Some (PCancel who path).

Lemma announced_prepared digest path file s w : announced digest path file s w -> prepared digest path (digest file) s w.
Proof. intros [(u & k & F & S & W & H) N]. exists u, k. splits; auto. intros X. contradiction. Qed.

(** Once the announcement was accepted, the upload is unfinished or finished with this file, wherever the command stops and
    whatever others do, short of cancelling it. *)
Theorem C142_interrupted digest said path file x size chunk s g0 id g w :
  reachable s -> exchange path (CInit size chunk) x s = (g0, id, AOk) ->
  (forall i, id = Some i -> said i = PHash (digest file)) -> (forall d, digest d = digest file -> d = file) ->
  Forall (fun m => snd m <> OCancel path) g -> honest digest said (g0 ++ g) s w ->
  announced digest path file (run (g0 ++ g) s) (storage_run said (g0 ++ g) s w) \/
  finished path file (run (g0 ++ g) s) (storage_run said (g0 ++ g) s w).
Proof.
  intros Hr E D Inj F Hs. pose proof (reachable_up_inv s Hr) as U. apply honest_app in Hs. destruct Hs as [_ Hs].
  rewrite run_app, storage_run_app.
  pose proof (prepared_init digest said path x size chunk s g0 id w (digest file) U E D) as P1.
  pose proof (prepared_run digest said path (digest file) g _ _ (run_up_inv g0 s U) F Hs P1) as (u & k & Fu & W & Hk & Fin & N).
  destruct (decide (u_state u = UFinalized)) as [Z|Z].
  - right. destruct (Fin Z) as (d & K & Dd). apply Inj in Dd. subst d. exists u, k. auto.
  - left. split; [exists u, k; auto|exact N].
Qed.
Print Assumptions C142_interrupted.

(** ** Repeating the command *)

(** If the repeated command reports success, the file can be had at the path, although its announcement is refused. *)
Theorem C142_file digest said rd reply file chunk path cs xs s w :
  let g := snd (transcript path (zip cs xs) s) in
  reachable s -> announced digest path file s w ->
  upload_file rd reply file chunk = (cs, UOk) -> tool_session digest said path file cs xs reply s ->
  honest digest said g s w -> (forall d, digest d = digest file -> d = file) -> Forall (fun m => snd m <> OCancel path) g ->
  available path file (run g s) (storage_run said g s w) /\ finished path file (run g s) (storage_run said g s w).
Proof.
  intros g Hr An Up [L R _] Hs Inj F. pose proof (reachable_up_inv s Hr) as U. apply announced_prepared in An.
  destruct (upload_ok_calls _ _ _ _ _ Up) as (mid & -> & Rf & _). clear Up.
  destruct (exists_last (l := xs)) as (xm & xl & ->); [intros ->; discriminate L|]. rewrite app_length in L. cbn in L. rewrite app_length in L. cbn in L.
  assert (Z : zip (CInit (nlen file) chunk :: mid ++ [CFinalize]) (xm ++ [xl]) = zip (CInit (nlen file) chunk :: mid) xm ++ [(CFinalize, xl)]).
  { change (CInit (nlen file) chunk :: mid ++ [CFinalize]) with ((CInit (nlen file) chunk :: mid) ++ [CFinalize]).
    rewrite zip_with_app by (cbn; lia). reflexivity. }
  subst g. rewrite Z in *. rewrite transcript_app in *. cbn [fst snd transcript] in *.
  set (g0 := snd (transcript path (zip (CInit (nlen file) chunk :: mid) xm) s)) in *. set (s2 := run g0 s) in *.
  destruct (exchange path CFinalize xl s2) as [[g3 id3] a3] eqn:E3. cbn [fst snd] in *. rewrite app_nil_r in *.
  apply Forall_app in R. destruct R as [_ R]. apply Forall_cons in R. destruct R as [R3 _]. cbn [fst snd] in R3.
  rewrite Rf in R3. symmetry in R3. apply tool_reply_ok in R3. subst a3.
  apply honest_app in Hs. destruct Hs as [Hs2 Hs3]. fold s2 in Hs3. apply Forall_app in F. destruct F as [F2 F3].
  rewrite run_app, storage_run_app. fold s2. assert (U2 : up_inv s2) by apply run_up_inv, U.
  pose proof (prepared_run digest said path (digest file) g0 s w U F2 Hs2 An) as P2. fold s2 in P2.
  destruct (finalize_available digest said path xl (digest file) s2 g3 id3 _ U2 E3 F3 Hs3 P2) as (d & A & B & C).
  apply Inj in B. subst d. auto.
Qed.
Print Assumptions C142_file.

Lemma contains_path_known s path u : up_inv s -> files s !! path = Some u -> contains_path s path = true.
Proof.
  intros U F. unfold contains_path. apply existsb_exists. exists (path, u). split.
  - apply elem_of_list_In, elem_of_map_to_list. exact F.
  - apply bool_decide_eq_true_2. cbn. apply (up_path s U _ _ F).
Qed.

(** The announcement of a path in use is refused and changes nothing. *)
Lemma announce_again path size chunk x u s :
  at_ease s -> smooth x -> holds s (e_caller (sh_env x)) PUpdateUploads -> files s !! path = Some u ->
  let y := exchange path (CInit size chunk) x s in
  snd y = AErr EFileAlreadyExists /\ at_ease (run (fst (fst y)) s) /\ perms (run (fst (fst y)) s) = perms s /\
  files (run (fst (fst y)) s) = files s.
Proof.
  intros E Sm H F. destruct (before_ease x s Sm E) as (E1 & F1 & H1). set (s1 := run (sh_before x) s) in *.
  rewrite <- F1 in F. rewrite <- (holds_same s s1 _ _ H1) in H. destruct E1 as (U1 & G1 & P1).
  assert (S : exists s2, step (sh_env x) (call_op path (CInit size chunk)) s1 = (s2, AErr EFileAlreadyExists) /\
    guards s2 = ∅ /\ pend s2 = pend s1 /\ perms s2 = perms s1 /\ files s2 = files s1).
  { cbn [call_op step]. unfold init_upload, upload_entry. apply holds_iff in H. rewrite H. rewrite guard_new_spec, G1.
    destruct (decide _) as [_|N]; [|congruence].
    unfold init_upload_first. change (contains_path (set_guards _ s1) path) with (contains_path s1 path).
    rewrite (contains_path_known s1 path u U1 F). eexists. split; [reflexivity|]. cbn. rewrite ?G1. splits; try reflexivity. set_solver. }
  destruct S as (s2 & S & G2 & P2 & H2 & F2). unfold exchange. fold s1. rewrite S. cbn [fst snd]. rewrite run_app. fold s1.
  cbn [run]. rewrite S. cbn [fst]. splits; try congruence. unfold at_ease. splits; try congruence.
  replace s2 with (run [(sh_env x, call_op path (CInit size chunk))] s1) by (cbn [run]; rewrite S; reflexivity). apply run_up_inv, U1.
Qed.

(** The answers the repeated command sees: the announcement is refused, the rest accepted. *)
Definition all_but_first (c : cli_call) : cli_reply := match c with CInit _ _ => ModelCli.RErr | _ => ModelCli.ROk end.

(** Whoever may upload completes an unfinished upload of a non-empty file by repeating the command, if no management call is in
    progress when it is started and the storage canister accepts the chunks (again) and the file. *)
Theorem C142_repeat h now s0 rd file chunk path u xs :
  let s := run h s0 in let cs := fst (upload_file rd all_but_first file chunk) in
  let y := transcript path (zip cs xs) s in
  now_at h now s0 -> unlocked h s0 -> files s !! path = Some u -> u_state u <> UFinalized ->
  file <> [] -> nlen file < 2 ^ 63 -> 0 < chunk < 2 ^ 63 -> full_reads rd ->
  length xs = length cs -> Forall smooth xs -> Forall (fun x => holds s (e_caller (sh_env x)) PUpdateUploads) xs ->
  Forall (fun x => sh_storage x = ROk) (tail xs) ->
  snd (upload_file rd all_but_first file chunk) = UOk /\ Forall (fun z => snd z = all_but_first (fst (fst z))) (fst y) /\
  status (run (snd y) s) path = Some UFinalized /\
  redirs (run (snd y) s) !! norm_path path = Some (redirection_url (u_canister u) (norm_path path)).
Proof.
  intros s cs y Hn Hu F0 Fu Ne Sz Ch Fr L Sm H Rs.
  assert (E0 : at_ease s).
  { unfold at_ease. splits; [|eapply unlocked_guards; eauto|apply Hu]. apply reachable_up_inv. destruct Hn as ((caller & url_ok & a & Hi) & _).
    exists caller, url_ok, a, s0, h. auto. }
  destruct (upload_file rd all_but_first file chunk) as [cs0 r] eqn:Up. subst cs. cbn [fst snd] in *.
  assert (R : r = UOk /\ CFinalize ∈ cs0).
  { unfold upload_file in Up. cbn [all_but_first delivered negb] in Up. destruct (N.eqb_spec chunk 0); [lia|].
    change (2 ^ 63) with 9223372036854775808 in Ch. destruct (N.leb_spec 9223372036854775808 chunk); [lia|].
    rewrite andb_false_r in Up. destruct (send_chunks _ _ _ _ _ _) as [cs1 o] eqn:Sc.
    assert (o = true) as ->.
    { clear -Sc Fr. revert cs1 o Sc. generalize (N.to_nat ((nlen file + chunk + two64 - 1) mod two64 / chunk)) as k. generalize 0 as i.
      intros i k. revert i file. induction k as [|k IH]; intros i rest cs1 o Sc; cbn [send_chunks] in Sc; [injection Sc as _ <-; reflexivity|].
      rewrite Fr in Sc. destruct (_ =? 0); [injection Sc as _ <-; reflexivity|]. cbn [all_but_first delivered] in Sc.
      destruct (send_chunks rd all_but_first chunk k (i + 1) _) as [cs2 o2] eqn:X. injection Sc as _ <-. eapply IH. exact X. }
    cbn in Up. injection Up as <- <-. split; [reflexivity|]. rewrite elem_of_cons, elem_of_app. right. right. left. }
  destruct R as [-> Fin].
  destruct (C66_whole_partial _ _ _ _ _ _ Fr Ch Sz Up Fin) as (Cat & _ & Cs).
  assert (Cn : chunks cs0 <> []) by (intros X; rewrite X in Cat; cbn in Cat; congruence).
  set (ck := map (fun x => CStore (fst x) (snd x)) (chunks cs0)) in *. rewrite Cs in L. cbn in L. rewrite app_length in L. cbn in L.
  destruct xs as [|x0 xs]; [discriminate L|]. cbn in L, Rs. apply Forall_cons in Sm. destruct Sm as [Sm0 Sm]. apply Forall_cons in H. destruct H as [H0 H].
  destruct (exists_last (l := xs)) as (xm & xl & ->); [intros ->; cbn in L; lia|]. rewrite app_length in L. cbn in L.
  apply Forall_app in Sm. destruct Sm as [Sm1 Sm2]. apply Forall_cons in Sm2. destruct Sm2 as [Sm2 _].
  apply Forall_app in H. destruct H as [H1 H2]. apply Forall_cons in H2. destruct H2 as [H2 _].
  apply Forall_app in Rs. destruct Rs as [R1 R2]. apply Forall_cons in R2. destruct R2 as [R2 _].
  assert (Z : zip cs0 (x0 :: xm ++ [xl]) = (CInit (nlen file) chunk, x0) :: zip ck xm ++ [(CFinalize, xl)]).
  { rewrite Cs. cbn. rewrite zip_with_app by lia. reflexivity. }
  subst y. rewrite Z. cbn [transcript fst snd]. rewrite transcript_app. cbn [fst snd transcript].
  (* the announcement *)
  destruct (announce_again path (nlen file) chunk x0 u s E0 Sm0 H0 F0) as (A1 & E1 & Q1 & A2).
  destruct (exchange path (CInit (nlen file) chunk) x0 s) as [[g0 id0] a0]. cbn [fst snd] in *. subst a0. set (s1 := run g0 s) in *.
  rewrite <- A2 in F0.
  (* the chunks *)
  assert (Hc : Forall (fun y => smooth (snd y) /\ holds s1 (e_caller (sh_env (snd y))) PUpdateUploads /\ sh_storage (snd y) = ROk /\
    exists i b, fst y = CStore i b) (zip ck xm)).
  { apply Forall_lookup. intros i [c x] W. apply lookup_zip_with_Some in W. destruct W as (c' & x' & [= <- <-] & W1 & W2). cbn [fst snd].
    rewrite Forall_lookup in Sm1, H1, R1. splits; eauto. { rewrite (holds_same _ _ _ _ Q1). eapply H1; exact W2. }
    unfold ck in W1. apply list_lookup_fmap_inv in W1. destruct W1 as ([i' b'] & -> & _). eauto. }
  destruct (stores_done path (zip ck xm) u s1 E1 Hc F0 Fu (up_path _ (proj1 E1) _ _ F0)) as (B1 & B2 & B3 & B4).
  assert (B0 : Forall (fun z : cli_call * option N * cli_reply => snd z = all_but_first (fst (fst z))) (fst (transcript path (zip ck xm) s1))).
  { assert (X : Forall (fun z : cli_call * option N * cli_reply => exists i b, fst (fst z) = CStore i b) (fst (transcript path (zip ck xm) s1))).
    { assert (Hc' : Forall (fun y : cli_call * shot => exists i b, fst y = CStore i b) (zip ck xm))
        by (eapply Forall_impl; [exact Hc|]; intros ? (_ & _ & _ & ?); assumption).
      clear -Hc'. revert Hc'. generalize s1. induction (zip ck xm) as [|[c x] l IH]; intros s2 Hc; cbn [transcript fst snd]; [constructor|].
      apply Forall_cons in Hc. destruct Hc as [Hc1 Hc]. apply Forall_cons. split; [exact Hc1|]. apply IH, Hc. }
    rewrite Forall_forall in B1, X |- *. intros z Hz. destruct (X z Hz) as (i & b & ->). apply B1, Hz. }
  set (t := transcript path (zip ck xm) s1) in *. set (s2 := run (snd t) s1) in *.
  assert (Nn : exists z zs, zip ck xm = z :: zs).
  { destruct ck as [|z ck'] eqn:Y; [apply map_eq_nil in Y; contradiction|]. destruct xm as [|x xm']; [cbn in L; lia|]. eexists _, _. reflexivity. }
  destruct Nn as (z & zs & Nn). rewrite Nn in B4. cbn [u_init u_canister] in B4.
  (* the end *)
  destruct (before_ease xl s2 Sm2 B2) as ((Ue & Ge & Pe) & Fe & He). set (se := run (sh_before xl) s2) in *.
  rewrite <- Fe in B4. rewrite <- (holds_same s se _ _ ltac:(congruence)) in H2.
  destruct (finalize_done (as_call xl) path _ (next_pend se) se Ue (as_call_undisturbed xl Sm2) H2 Ge Pe eq_refl B4 eq_refl)
    as (D1 & D2 & D3 & D4 & D5 & D6 & D7 & D8).
  pose proof (exchange_done path CFinalize xl s2) as X. cbv zeta in X. fold se in X. rewrite R2 in X. cbn [call_op] in X.
  rewrite X by assumption. clear X. cbn [fst snd]. rewrite app_nil_r.
  rewrite run_app. fold s1. rewrite run_app. fold s2. rewrite run_app. fold se.
  splits.
  - reflexivity.
  - constructor; [reflexivity|]. apply Forall_app. split; [exact B0|]. constructor; [reflexivity|constructor].
  - unfold status. rewrite D1. reflexivity.
  - exact D2.
Qed.
Print Assumptions C142_repeat.

(** The command stops after its first chunk (say, the connection is lost) and is started again. *)
Definition half_shots : list shot := [fine_shot 10 (RInitOk [7]); fine_shot 20 ROk].
Definition again_shots : list shot := [fine_shot 110 ROk; fine_shot 120 ROk; fine_shot 130 ROk; fine_shot 140 ROk].
Definition again_said (id : N) : call_payload :=
  if id =? 0 then PHash [65; 66; 67] else if id =? 1 then PChunk 0 [65; 66] else if id =? 2 then PChunk 0 [65; 66]
  else if id =? 3 then PChunk 1 [67] else PNothing.

Example C142_example :
  let g := snd (transcript "a.png" (zip (take 2 fine_calls) half_shots) demo2) in let s := run g demo2 in
  let w := storage_run again_said g demo2 ∅ in
  let g2 := snd (transcript "a.png" (zip fine_calls again_shots) s) in
  upload_file (fun _ n m => Some (N.min n m)) all_but_first [65; 66; 67] 2 = (fine_calls, UOk) /\
  status s "a.png" = Some UInProgress /\ k_hash <$> w !! ([7], "a.png"%string) = Some [65; 66; 67] /\
  calm (trace (demo2_h ++ g) demo0) /\ pend s = ∅ /\ Forall smooth again_shots /\
  map snd (fst (transcript "a.png" (zip fine_calls again_shots) s)) = [ModelCli.RErr; ModelCli.ROk; ModelCli.ROk; ModelCli.ROk] /\
  honest id again_said g2 s w /\ Forall (fun m => snd m <> OCancel "a.png") g2 /\
  redirs (run g2 s) !! "/a.png"%string = Some (redirection_url [7] "/a.png") /\
  k_final <$> storage_run again_said g2 s w !! ([7], "a.png"%string) = Some (Some [65; 66; 67]).
Proof.
  cbv zeta. splits.
  - reflexivity.
  - vm_compute. reflexivity.
  - vm_compute. reflexivity.
  - apply calm_no_upgrade. vm_compute. repeat constructor; discriminate.
  - apply map_to_list_empty_iff. vm_compute. reflexivity.
  - repeat constructor; discriminate.
  - vm_compute. reflexivity.
  - vm_compute. repeat split. eexists. split; reflexivity.
  - vm_compute. repeat constructor; discriminate.
  - vm_compute. reflexivity.
  - vm_compute. reflexivity.
Qed.
