(** C125, C126: the upload commands of the tool, the collection canister and the storage canisters together. *)
From Verif Require Import ModelCodec ModelCli ModelPrompts ModelWorkflow PropertiesCli PropertiesPrompts.
From Verif Require Import Base ModelPrincipal ModelState ModelIcrc7 ModelIcrc37 ModelManagement ModelLifecycle
  ModelQueries ModelStep ModelHttp ProofsItems ProofsManage ProofsMicro Spec ProofsCore ProofsTime ProofsLock ProofsUploads Scenario
  PropertiesMeta PropertiesUploads PropertiesHttp PropertiesLive PropertiesUploadLive.

(** ** The storage canisters *)

(** What a storage canister keeps of a file: the hash announced, the chunks, and the content once it is complete. *)
Record kept := mkKept { k_hash : bytes; k_chunks : gmap N bytes; k_final : option bytes }.
Notation storage := (gmap (principal * string) kept).
Definition assembled (m : gmap N bytes) : bytes := concat (omap (fun i => m !! i) (map N.of_nat (seq 0 (size m)))).

(** What they do with the calls they accept; [said id] is what was sent with waiting call [id]. *)
Definition storage_step (said : N -> call_payload) (o : op) (s : state) (w : storage) : storage :=
  match o with
  | OReply id r =>
      match pend s !! id, r with
      | Some (PInit _ path _), RInitOk c => <[(c, path) := mkKept (match said id with PHash h => h | _ => [] end) ∅ None]> w
      | Some (PStore _ key _ c _), ROk =>
          match said id with
          | PChunk i b => alter (fun k => mkKept (k_hash k) (<[i := b]> (k_chunks k)) (k_final k)) (c, key) w
          | _ => w
          end
      | Some (PFinalize _ key _ c _), ROk =>
          alter (fun k => mkKept (k_hash k) (k_chunks k) (Some (assembled (k_chunks k)))) (c, key) w
      | Some (PCancel _ key), ROk => match files s !! key with Some u => delete (u_canister u, key) w | None => w end
      | _, _ => w
      end
  | _ => w
  end.
Fixpoint storage_run (said : N -> call_payload) (h : history) (s : state) (w : storage) : storage :=
  match h with [] => w | (e, o) :: r => storage_run said r (fst (step e o s)) (storage_step said o s w) end.

(** The one thing asked of them: a file is accepted as complete only if its hash is the one announced. *)
Definition honest_step (digest : bytes -> bytes) (o : op) (s : state) (w : storage) : Prop :=
  match o with
  | OReply id ROk =>
      match pend s !! id with
      | Some (PFinalize _ key _ c _) => exists k, w !! (c, key) = Some k /\ digest (assembled (k_chunks k)) = k_hash k
      | _ => True
      end
  | _ => True
  end.
Fixpoint honest (digest : bytes -> bytes) (said : N -> call_payload) (h : history) (s : state) (w : storage) : Prop :=
  match h with
  | [] => True
  | (e, o) :: r => honest_step digest o s w /\ honest digest said r (fst (step e o s)) (storage_step said o s w)
  end.

(** The file [d] can be had at [path]: requests are sent on to a storage canister that keeps it. *)
Definition available (path : string) (d : bytes) (s : state) (w : storage) : Prop :=
  exists c k, redirs s !! norm_path path = Some (redirection_url c (norm_path path)) /\ w !! (c, path) = Some k /\ k_final k = Some d.

(** The upload is finished, and the storage canister that took it keeps the content [d]. *)
Definition finished (path : string) (d : bytes) (s : state) (w : storage) : Prop :=
  exists u k, files s !! path = Some u /\ u_state u = UFinalized /\ w !! (u_canister u, path) = Some k /\ k_final k = Some d.

Lemma storage_run_app said h1 h2 s w : storage_run said (h1 ++ h2) s w = storage_run said h2 (run h1 s) (storage_run said h1 s w).
Proof. revert s w. induction h1 as [|[e o] h IH]; intros s w; [reflexivity|]. cbn. apply IH. Qed.
Lemma honest_app digest said h1 h2 s w :
  honest digest said (h1 ++ h2) s w <-> honest digest said h1 s w /\ honest digest said h2 (run h1 s) (storage_run said h1 s w).
Proof. revert s w. induction h1 as [|[e o] h IH]; intros s w; cbn; [tauto|]. rewrite IH. tauto. Qed.

(** ** Uploads in preparation *)

Definition no_cancel (path : string) (s : state) : Prop := forall id who, pend s !! id <> Some (PCancel who path).

Definition prepared (digest : bytes -> bytes) (path : string) (hash : bytes) (s : state) (w : storage) : Prop :=
  exists u k, files s !! path = Some u /\ w !! (u_canister u, path) = Some k /\ k_hash k = hash /\
    (u_state u = UFinalized -> exists d, k_final k = Some d /\ digest d = hash) /\ no_cancel path s.

Lemma not_reply o : (exists id r, o = OReply id r) \/ (forall id r, o <> OReply id r).
Proof. destruct o; eauto; right; discriminate. Qed.

Lemma resume_files e id r s p : pend s !! id = Some p ->
  files (fst (step e (OReply id r) s)) = files (fst (continue (e_now e) p r s)) /\
  pend (fst (step e (OReply id r) s)) = delete id (pend s) /\
  redirs (fst (step e (OReply id r) s)) = redirs (fst (continue (e_now e) p r s)).
Proof.
  intros P. cbn [step]. unfold resume. rewrite P.
  pose proof (continue_frame (e_now e) p r s) as (_ & K2 & _).
  destruct (continue _ _ _ _) as [s1 a] eqn:K. cbn in K2. destruct a as [[| |]|]; cbn; rewrite K2; auto.
Qed.
Lemma resume_none e id r s : pend s !! id = None -> fst (step e (OReply id r) s) = s.
Proof. intros P. cbn [step]. unfold resume. rewrite P. reflexivity. Qed.

Lemma no_cancel_step e o s path : o <> OCancel path -> no_cancel path s -> no_cancel path (fst (step e o s)).
Proof.
  intros Ho N id who P. destruct (step e o s) as [s' a] eqn:S. cbn in P.
  destruct (step_pend_origin _ _ _ _ _ _ _ S P) as [Q|(W & _)]; [exact (N _ _ Q)|].
  destruct o; cbn in W; try contradiction. subst. congruence.
Qed.

Lemma prepared_step digest said path hash e o s w :
  up_inv s -> o <> OCancel path -> honest_step digest o s w -> prepared digest path hash s w ->
  prepared digest path hash (fst (step e o s)) (storage_step said o s w).
Proof.
  intros U Ho Hs (u & k & F & W & Hk & Fin & N). pose proof (no_cancel_step e o s path Ho N) as N'.
  destruct (not_reply o) as [(id & r & ->)|Nr].
  2: { destruct (step_files e o s U Nr) as (A & _). exists u, k. rewrite A.
       assert (storage_step said o s w = w) as -> by (destruct o; try reflexivity; destruct (Nr _ _ eq_refl)). auto. }
  destruct (pend s !! id) as [p|] eqn:P.
  2: { rewrite resume_none in * by exact P. cbn. rewrite P. exists u, k. auto. }
  destruct (resume_files e id r s p P) as (A & _). pose proof (up_pend s U _ _ P) as OK.
  unfold prepared. rewrite A. revert N'. generalize (fst (step e (OReply id r) s)). intros s' N'. cbn [storage_step honest_step] in *. rewrite P in *.
  destruct p as [c path' snap|c key i cn path'|c key i cn path'|c key], r; cbn in OK |- *; try (exists u, k; auto; fail).
  - destruct OK as [OK _]. assert (path' <> path) by congruence. exists u, k. rewrite lookup_insert_ne, (lookup_insert_ne w) by congruence. auto.
  - destruct OK as (u0 & F0 & S0 & -> & -> & ->). destruct (decide (key = path)) as [->|Hne].
    + assert (u0 = u) as -> by congruence. rewrite lookup_insert.
      assert (X : exists k', (match said id with PChunk i b => alter (fun k0 => mkKept (k_hash k0) (<[i := b]> (k_chunks k0)) (k_final k0)) (u_canister u, path) w | _ => w end)
        !! (u_canister u, path) = Some k' /\ k_hash k' = hash).
      { destruct (said id); [exists k; auto| |exists k; auto]. rewrite lookup_alter, W. cbn. eauto. }
      destruct X as (k' & X1 & X2). eexists _, k'. split; [reflexivity|]. cbn. splits; auto. discriminate.
    + exists u, k. rewrite lookup_insert_ne by congruence.
      assert ((match said id with PChunk i b => alter (fun k0 => mkKept (k_hash k0) (<[i := b]> (k_chunks k0)) (k_final k0)) (u_canister u0, key) w | _ => w end)
        !! (u_canister u, path) = Some k) as ->; [|auto]. destruct (said id); auto. rewrite lookup_alter_ne by congruence. exact W.
  - destruct OK as (u0 & F0 & S0 & -> & -> & ->). destruct (decide (key = path)) as [->|Hne].
    + assert (u0 = u) as -> by congruence. rewrite lookup_insert. eexists _, _. split; [reflexivity|].
      cbn. rewrite lookup_alter, W. cbn. split; [reflexivity|]. cbn. splits; auto. intros _. eexists. split; [reflexivity|].
      destruct Hs as (k' & K1 & K2). assert (k' = k) as -> by congruence. rewrite <- Hk. exact K2.
    + exists u, k. rewrite lookup_insert_ne, lookup_alter_ne by congruence. auto.
  - destruct OK as (u0 & F0 & S0). assert (key <> path) by (intros ->; exact (N _ _ P)).
    exists u, k. rewrite F0, lookup_delete_ne, (lookup_delete_ne w) by congruence. auto.
Qed.

Lemma prepared_run digest said path hash h : forall s w,
  up_inv s -> Forall (fun m => snd m <> OCancel path) h -> honest digest said h s w -> prepared digest path hash s w ->
  prepared digest path hash (run h s) (storage_run said h s w).
Proof.
  induction h as [|[e o] h IH]; intros s w U F Hs P; [exact P|]. apply Forall_cons in F. destruct F as [F1 F2]. destruct Hs as [H1 H2].
  cbn [run storage_run]. apply IH; auto.
  - apply (run_up_inv [(e, o)]), U.
  - apply prepared_step; auto.
Qed.

Lemma call_pending path c e s s' : step e (call_op path c) s = (s', APending) ->
  exists p, pend s' = <[next_pend s := p]> (pend s) /\ waits_for p (call_op path c) /\ next_pend s' = next_pend s + 1.
Proof.
  assert (F : forall first o, ans_upload (upload_entry e s first) = (s', APending) ->
    (forall s0 s1 q, first s0 = (s1, inr q) -> pend s1 = pend s0 /\ next_pend s1 = next_pend s0 /\ waits_for q o) ->
    exists p, pend s' = <[next_pend s := p]> (pend s) /\ waits_for p o /\ next_pend s' = next_pend s + 1).
  { intros first o H C. unfold upload_entry in H. destruct (has_permission _ _ _); [|discriminate].
    rewrite guard_new_spec in H. destruct (decide (guards s = ∅)); [|discriminate].
    destruct (first (set_guards {[e_caller e]} s)) as [s1 [er|q]] eqn:E; [discriminate|].
    destruct (C _ _ _ E) as (C1 & C2 & C3). cbn in C1, C2. injection H as <-. exists q. cbn. rewrite C1, C2. auto. }
  destruct c as [size k|i b|]; cbn [call_op]; intros S.
  - apply (F (init_upload_first e path size) _ S). intros s0 s1 q H. unfold init_upload_first in H.
    destruct (contains_path s0 path); [discriminate|]. destruct (_ <? _); [discriminate|]. injection H as <- <-. cbn. auto.
  - apply (F (store_chunk_first e path) _ S). intros s0 s1 q H. unfold store_chunk_first in H.
    destruct (files s0 !! path) as [u|]; [|discriminate].
    destruct (u_state u); try destruct (bool_decide _); inversion H; subst; cbn; auto.
  - apply (F (finalize_upload_first e path) _ S). intros s0 s1 q H. unfold finalize_upload_first in H.
    destruct (files s0 !! path) as [u|]; [|discriminate].
    destruct (u_state u); try destruct (bool_decide _); inversion H; subst; cbn; auto.
Qed.

Lemma call_not_ok path c e s s' : step e (call_op path c) s <> (s', AOk).
Proof.
  assert (F : forall first, ans_upload (upload_entry e s first) <> (s', AOk)).
  { intros first H. unfold upload_entry in H. destruct (has_permission _ _ _); [|discriminate].
    destruct (guard_new _ _); [|discriminate]. destruct (first _) as [s1 [er|q]]; discriminate. }
  destruct c; apply F.
Qed.

Lemma pend_step e o s :
  next_pend s <= next_pend (fst (step e o s)) /\
  forall i q, i < next_pend s -> pend (fst (step e o s)) !! i = Some q -> pend s !! i = Some q.
Proof.
  apply (step_rel (fun _ => True) (fun a b => next_pend a <= next_pend b /\ forall i q, i < next_pend a -> pend b !! i = Some q -> pend a !! i = Some q) e o s); auto.
  - intros a b c [A1 A2] [B1 B2]. split; [lia|]. intros i q L P. apply A2; [exact L|]. apply B2; [lia|exact P].
  - clear s. intros s s' _ M. split; [exact I|]. micro_split M; cbn; try (split; [lia|auto; fail]).
    + split; [lia|]. intros i q L X. rewrite lookup_insert_ne in X by lia. exact X.
    + match goal with |- context [continue ?n ?p ?r ?x] => pose proof (continue_frame n p r x) as (_ & K2 & _) end.
      split; [destruct p, r; cbn; lia|]. intros i q L X. rewrite K2 in X. apply lookup_delete_Some in X. tauto.
    + split; [lia|]. intros i q L X. rewrite lookup_empty in X. discriminate.
Qed.

Lemma pend_run h : forall s, next_pend s <= next_pend (run h s) /\
  forall i q, i < next_pend s -> pend (run h s) !! i = Some q -> pend s !! i = Some q.
Proof.
  induction h as [|[e o] h IH]; intros s; [split; [reflexivity|auto]|]. cbn [run]. destruct (pend_step e o s) as [A1 A2].
  destruct (IH (fst (step e o s))) as [B1 B2]. split; [lia|]. intros i q L P. apply A2; [exact L|]. apply B2; [lia|exact P].
Qed.

(** A call that is answered with success: it waited, and the reply found it waiting. *)
Lemma exchange_ok path c x s g id :
  exchange path c x s = (g, id, AOk) ->
  exists g1 p i, g = g1 ++ [(sh_reply x, OReply i (sh_storage x))] /\ id = Some i /\ pend (run g1 s) !! i = Some p /\
    waits_for p (call_op path c) /\ step (sh_reply x) (OReply i (sh_storage x)) (run g1 s) = (run g s, AOk) /\
    (exists g2, g1 = sh_before x ++ (sh_env x, call_op path c) :: g2) /\ i = next_pend (run (sh_before x) s).
Proof.
  unfold exchange. intros H. destruct (step (sh_env x) (call_op path c) (run (sh_before x) s)) as [s1 a] eqn:S.
  destruct a; cbn [fst snd] in H; try discriminate; [exfalso; eapply call_not_ok; exact S|].
  injection H as <- <- E.
  change (snd (step (sh_reply x) (OReply (next_pend (run (sh_before x) s)) (sh_storage x)) (run (sh_between x) s1)) = AOk) in E.
  destruct (call_pending _ _ _ _ _ S) as (p & P1 & P2 & P3).
  set (i := next_pend (run (sh_before x) s)) in *. set (g1 := sh_before x ++ (sh_env x, call_op path c) :: sh_between x).
  assert (R : run g1 s = run (sh_between x) s1). { unfold g1. rewrite run_app. cbn [run]. rewrite S. reflexivity. }
  assert (Q : pend (run g1 s) !! i = Some p).
  { destruct (pend (run g1 s) !! i) as [q|] eqn:Q.
    - rewrite R in Q. apply (proj2 (pend_run _ _)) in Q; [|rewrite P3; fold i; lia]. rewrite P1, lookup_insert in Q. symmetry. exact Q.
    - exfalso. rewrite <- R in E. cbn [step] in E. unfold resume in E. rewrite Q in E. discriminate. }
  exists g1, p, i. split. { unfold g1. rewrite <- app_assoc. reflexivity. }
  split; [reflexivity|]. split; [exact Q|]. split; [exact P2|]. split.
  - assert (R2 : run (sh_before x ++ (sh_env x, call_op path c) :: sh_between x ++ [(sh_reply x, OReply i (sh_storage x))]) s
      = fst (step (sh_reply x) (OReply i (sh_storage x)) (run g1 s))).
    { replace (sh_before x ++ _) with (g1 ++ [(sh_reply x, OReply i (sh_storage x))]) by (unfold g1; rewrite <- app_assoc; reflexivity).
      rewrite run_app. reflexivity. }
    rewrite R2. rewrite <- R in E. rewrite <- E. apply surjective_pairing.
  - split; [eexists; reflexivity|reflexivity].
Qed.

Lemma transcript_app path l1 l2 s :
  transcript path (l1 ++ l2) s =
  (fst (transcript path l1 s) ++ fst (transcript path l2 (run (snd (transcript path l1 s)) s)),
   snd (transcript path l1 s) ++ snd (transcript path l2 (run (snd (transcript path l1 s)) s))).
Proof.
  revert s. induction l1 as [|[c x] l IH]; intros s; cbn [app transcript fst snd].
  - cbn. apply surjective_pairing.
  - rewrite IH. cbn [fst snd]. rewrite run_app, <- app_assoc. reflexivity.
Qed.

(** The calls of an upload that is reported as successful. *)
Lemma upload_ok_calls rd reply file c cs : upload_file rd reply file c = (cs, UOk) ->
  exists mid, cs = CInit (nlen file) c :: mid ++ [CFinalize] /\ reply CFinalize = ModelCli.ROk /\
    reply (CInit (nlen file) c) <> ModelCli.RFail.
Proof.
  unfold upload_file. destruct (delivered (reply (CInit (nlen file) c))) eqn:D; cbn [negb]; [|discriminate].
  destruct (c =? 0); [discriminate|]. destruct (_ && _)%bool; [discriminate|].
  destruct (send_chunks _ _ _ _ _ _) as [cs1 ok]. destruct ok; cbn [negb]; [|discriminate].
  intros [= <- F]. exists cs1. splits; auto.
  - destruct (reply CFinalize); cbn in F; try discriminate. reflexivity.
  - intros E. rewrite E in D. discriminate.
Qed.

Lemma tool_reply_ok a : tool_reply a = ModelCli.ROk -> a = AOk.
Proof. destruct a; cbn; congruence. Qed.

(** A reply that ends a waiting call with success. *)
Lemma reply_ok e i r s p s' : pend s !! i = Some p -> step e (OReply i r) s = (s', AOk) ->
  match p with PInit _ _ _ => exists c, r = RInitOk c | _ => r = ROk end.
Proof.
  intros P H. cbn [step] in H. unfold resume in H. rewrite P in H.
  destruct p, r; cbn in H; try discriminate; eauto.
Qed.

Lemma prepared_init digest said path x size chunk s g id w hash :
  up_inv s -> exchange path (CInit size chunk) x s = (g, id, AOk) ->
  (forall i, id = Some i -> said i = PHash hash) -> prepared digest path hash (run g s) (storage_run said g s w).
Proof.
  intros U E Hs. destruct (exchange_ok _ _ _ _ _ _ E) as (g1 & p & i & -> & -> & P & W & S & _).
  specialize (Hs i eq_refl). set (s1 := run g1 s) in *. assert (U1 : up_inv s1) by apply run_up_inv, U.
  destruct p as [who path' snap| | |]; cbn in W; try contradiction. subst path'.
  destruct (reply_ok _ _ _ _ _ _ P S) as [c Hr].
  destruct (resume_files (sh_reply x) i (sh_storage x) s1 _ P) as (A & B & _). rewrite S in A, B. cbn [fst] in A, B.
  assert (N : no_cancel path (run (g1 ++ [(sh_reply x, OReply i (sh_storage x))]) s)).
  { intros j q Q. rewrite B in Q. destruct (up_lock _ U1) as [L _].
    rewrite (size_le_1 _ _ _ L P), delete_singleton, lookup_empty in Q. discriminate. }
  rewrite storage_run_app. cbn [storage_run]. fold s1. unfold storage_step. rewrite P, Hr, Hs. rewrite Hr in A. cbn in A.
  unfold prepared. rewrite A. rewrite lookup_insert. eexists _, _. split; [reflexivity|]. cbn. rewrite lookup_insert.
  split; [reflexivity|]. split; [reflexivity|]. split; [discriminate|]. rewrite Hr in N. exact N.
Qed.

Lemma finalize_available digest said path x hash s g id w :
  up_inv s -> exchange path CFinalize x s = (g, id, AOk) ->
  Forall (fun m => snd m <> OCancel path) g -> honest digest said g s w -> prepared digest path hash s w ->
  exists d, available path d (run g s) (storage_run said g s w) /\ digest d = hash /\ finished path d (run g s) (storage_run said g s w).
Proof.
  intros U E F Hs P0. pose proof (prepared_run digest said path hash g s w U F Hs P0) as (u & k & Fu & W & _ & Fin & _).
  destruct (exchange_ok _ _ _ _ _ _ E) as (g1 & p & i & -> & -> & P & Wf & S & _). set (s1 := run g1 s) in *.
  assert (U1 : up_inv s1) by apply run_up_inv, U.
  destruct p as [|who ? ? ? ?|who key j c path'|]; cbn in Wf; try contradiction. subst key.
  pose proof (up_pend _ U1 _ _ P) as (u1 & Fu1 & _ & _ & Hc & Hp). rewrite (up_path _ U1 _ _ Fu1) in Hp.
  pose proof (reply_ok _ _ _ _ _ _ P S) as Hr. cbn in Hr.
  destruct (resume_files (sh_reply x) i (sh_storage x) s1 _ P) as (A & _ & R). rewrite S in A, R. cbn [fst] in A, R. subst path'.
  rewrite Hr in A at 2. rewrite Hr in R at 2. cbn in A, R.
  rewrite A, lookup_insert in Fu. injection Fu as <-. destruct (Fin eq_refl) as (d & K & D).
  exists d. cbn in W. splits; [|exact D|].
  - exists c, k. rewrite R, lookup_insert. auto.
  - exists (mkUp j UFinalized c path), k. rewrite A, lookup_insert. auto.
Qed.

(** ** C125 *)

(** The upload command at work: its calls get the answers it sees, and with those that wait go its data. *)
Record tool_session (digest : bytes -> bytes) (said : N -> call_payload) (path : string) (file : bytes) (cs : list cli_call) (xs : list shot)
  (reply : cli_call -> cli_reply) (s : state) : Prop := {
  ts_len : length xs = length cs;
  ts_replies : Forall (fun y => reply (fst (fst y)) = snd y) (fst (transcript path (zip cs xs) s));
  ts_data : Forall (fun y => forall i, snd (fst y) = Some i -> said i = call_data digest file (fst (fst y)))
    (fst (transcript path (zip cs xs) s)) }.

(** The claim: if the command reports success, the file can be had at the path.  It holds if the canister accepted the
    announcement (the tool does not look) and nobody cancels the upload meanwhile.
    Missing: an announcement that was refused, see [C125_upload_refuted]. *)
Theorem C125_upload_partial digest said rd reply file chunk path cs xs s w :
  let g := snd (transcript path (zip cs xs) s) in
  reachable s -> upload_file rd reply file chunk = (cs, UOk) -> tool_session digest said path file cs xs reply s ->
  honest digest said g s w -> (forall d, digest d = digest file -> d = file) ->
  reply (CInit (nlen file) chunk) = ModelCli.ROk -> Forall (fun m => snd m <> OCancel path) g ->
  available path file (run g s) (storage_run said g s w) /\ finished path file (run g s) (storage_run said g s w).
Proof.
  intros g Hr Up [L R D] Hs Inj Ri F. pose proof (reachable_up_inv s Hr) as U.
  destruct (upload_ok_calls _ _ _ _ _ Up) as (mid & -> & Rf & _). clear Up.
  destruct xs as [|x0 xs]; [discriminate L|]. cbn in L. rewrite app_length in L. cbn in L.
  destruct (exists_last (l := xs)) as (xm & xl & ->); [intros ->; cbn in L; lia|]. rewrite app_length in L. cbn in L.
  assert (Z : zip (CInit (nlen file) chunk :: mid ++ [CFinalize]) (x0 :: xm ++ [xl]) =
    (CInit (nlen file) chunk, x0) :: zip mid xm ++ [(CFinalize, xl)]).
  { cbn. rewrite zip_with_app by lia. reflexivity. }
  subst g. rewrite Z in *. clear Z. cbn [transcript fst snd] in *. rewrite transcript_app in *. cbn [fst snd transcript] in *.
  set (c0 := CInit (nlen file) chunk) in *. destruct (exchange path c0 x0 s) as [[g0 id0] a0] eqn:E0. cbn [fst snd] in *.
  set (s1 := run g0 s) in *. set (l := zip mid xm) in *.
  set (gm := snd (transcript path l s1)) in *. set (s2 := run gm s1) in *.
  destruct (exchange path CFinalize xl s2) as [[g3 id3] a3] eqn:E3. cbn [fst snd] in *.
  apply Forall_cons in R. destruct R as [R0 R]. apply Forall_app in R. destruct R as [_ R]. apply Forall_cons in R. destruct R as [R3 _].
  apply Forall_cons in D. destruct D as [D0 _]. cbn [fst snd] in *. rewrite app_nil_r in *.
  rewrite Ri in R0. symmetry in R0. apply tool_reply_ok in R0. subst a0. rewrite Rf in R3. symmetry in R3. apply tool_reply_ok in R3. subst a3.
  apply honest_app in Hs. destruct Hs as [_ Hs]. fold s1 in Hs. apply honest_app in Hs. destruct Hs as [Hs2 Hs3]. fold s2 in Hs3.
  apply Forall_app in F. destruct F as [_ F]. apply Forall_app in F. destruct F as [F2 F3].
  rewrite !run_app, !storage_run_app. fold s1. fold s2.
  assert (U1 : up_inv s1) by apply run_up_inv, U. assert (U2 : up_inv s2) by apply run_up_inv, U1.
  pose proof (prepared_init digest said path x0 _ _ s g0 id0 w (digest file) U E0 D0) as P1. fold s1 in P1.
  pose proof (prepared_run digest said path (digest file) gm s1 _ U1 F2 Hs2 P1) as P2. fold s2 in P2.
  destruct (finalize_available digest said path xl (digest file) s2 g3 id3 _ U2 E3 F3 Hs3 P2) as (d & A & B & C).
  apply Inj in B. subst d. auto.
Qed.
Print Assumptions C125_upload_partial.

(** Refuted without it: the canister is busy with another uploader's chunk at the same path; the announcement and the only chunk
    of our file are turned away, the tool goes on, and the other file is finalized and reported as ours. *)
Definition other_h : history :=
  [(from_ admin 1, OInitUpload "a.png" 1); (from_ admin 2, OReply 0 (RInitOk [7])); (from_ admin 3, OStoreChunk "a.png")].
Definition other_said (id : N) : call_payload :=
  if id =? 0 then PHash [66] else if id =? 1 then PChunk 0 [66] else PNothing.
Definition our_shots : list shot :=
  [mkShot [] (from_ admin 4) [] (from_ admin 4) ROk; mkShot [] (from_ admin 5) [] (from_ admin 5) ROk;
   mkShot [(from_ admin 6, OReply 1 ROk)] (from_ admin 7) [] (from_ admin 8) ROk].
Definition our_calls : list cli_call := [CInit 1 4; CStore 0 [65]; CFinalize].

Theorem C125_upload_refuted :
  ~ (forall digest said rd reply file chunk path cs xs s w,
      let g := snd (transcript path (zip cs xs) s) in
      reachable s -> upload_file rd reply file chunk = (cs, UOk) -> tool_session digest said path file cs xs reply s ->
      honest digest said g s w -> (forall d, digest d = digest file -> d = file) -> Forall (fun m => snd m <> OCancel path) g ->
      available path file (run g s) (storage_run said g s w)).
Proof.
  intros H. specialize (H id other_said (fun _ n m => Some (N.min n m)) (fun c => match c with CFinalize => ModelCli.ROk | _ => ModelCli.RErr end)
    [65] 4 "a.png"%string our_calls our_shots (run other_h demo0) (storage_run other_said other_h demo0 ∅)). cbv zeta in H.
  destruct H as (c & k & _ & W & F).
  - apply demo_reachable.
  - reflexivity.
  - constructor; [reflexivity|..].
    + apply Forall_lookup. intros i y Y.
      assert (E : map (fun y => (fst (fst y), snd y)) (fst (transcript "a.png" (zip our_calls our_shots) (run other_h demo0))) =
        [(CInit 1 4, ModelCli.RErr); (CStore 0 [65], ModelCli.RErr); (CFinalize, ModelCli.ROk)]) by (vm_compute; reflexivity).
      assert (X : map (fun y => (fst (fst y), snd y)) (fst (transcript "a.png" (zip our_calls our_shots) (run other_h demo0))) !! i =
        Some (fst (fst y), snd y)) by (rewrite list_lookup_fmap, Y; reflexivity).
      rewrite E in X. destruct i as [|[|[|i]]]; cbn in X; [..|destruct i; discriminate]; injection X as <- <-; reflexivity.
    + apply Forall_lookup. intros i y Y j J.
      assert (E : map fst (fst (transcript "a.png" (zip our_calls our_shots) (run other_h demo0))) =
        [(CInit 1 4, None); (CStore 0 [65], None); (CFinalize, Some 2)]) by (vm_compute; reflexivity).
      assert (X : map fst (fst (transcript "a.png" (zip our_calls our_shots) (run other_h demo0))) !! i = Some (fst y))
        by (rewrite list_lookup_fmap, Y; reflexivity).
      rewrite E in X. destruct i as [|[|[|i]]]; cbn in X; [..|destruct i; discriminate]; injection X as X; rewrite <- X in J |- *; try discriminate.
      injection J as <-. reflexivity.
  - vm_compute. repeat split. eexists. split; reflexivity.
  - intros d. exact (fun e => e).
  - vm_compute. repeat constructor; discriminate.
  - apply elem_of_map_to_list in W.
    match type of W with _ ∈ ?m => assert (E : m =
      [(([7], "a.png"%string), mkKept [66] {[0 := [66]]} (Some [66]))]) by (vm_compute; reflexivity) end.
    rewrite E in W. apply elem_of_list_singleton in W. injection W as -> ->. discriminate F.
Qed.
Print Assumptions C125_upload_refuted.

(** ** The command succeeds if nothing is in its way *)

(** Before a call arrives there are only calls of the token standards; while it waits, anything but replies and upgrades. *)
Definition smooth (x : shot) : Prop :=
  Forall (fun m => token_call (snd m)) (sh_before x) /\ Forall (fun m => call (snd m)) (sh_between x).

Definition as_call (x : shot) : upload_call := mkCall (sh_env x) (sh_between x) (sh_reply x) [].
Lemma as_call_undisturbed x : smooth x -> undisturbed (as_call x).
Proof. intros [_ H]. split; [exact H|constructor]. Qed.

Lemma exchange_done path c x s :
  let s1 := run (sh_before x) s in let g := call_h (as_call x) (call_op path c) (next_pend s1) (sh_storage x) in
  snd (step (sh_env x) (call_op path c) s1) = APending -> replies_ok (trace g s1) ->
  exchange path c x s = (sh_before x ++ g, Some (next_pend s1), AOk).
Proof.
  intros s1 g P R. unfold exchange. fold s1. rewrite P. f_equal.
  unfold g, call_h in R. cbn [uc_env uc_between uc_reply uc_after as_call] in R. cbn [trace] in R.
  destruct (step (sh_env x) (call_op path c) s1) as [s2 a2] eqn:S. cbn [fst snd] in *. apply Forall_cons in R. destruct R as [_ R].
  rewrite trace_app in R. apply Forall_app in R. destruct R as [_ R]. cbn [trace] in R.
  destruct (step (sh_reply x) (OReply (next_pend s1) (sh_storage x)) (run (sh_between x) s2)) as [s3 a3]. apply Forall_cons in R.
  destruct R as [R _]. cbn in R. apply (R _ _ eq_refl).
Qed.

(** What the tool needs of a state. *)
Definition at_ease (s : state) : Prop := up_inv s /\ guards s = ∅ /\ pend s = ∅.

Lemma before_ease x s : smooth x -> at_ease s ->
  at_ease (run (sh_before x) s) /\ files (run (sh_before x) s) = files s /\ perms (run (sh_before x) s) = perms s.
Proof.
  intros [B _] (U & G & P). destruct (run_same_uploads (sh_before x) s (or_introl B)) as (A1 & A2 & A3 & A4 & A5 & A6 & A7).
  split; [|split; [exact A1|exact A4]]. unfold at_ease. splits; [apply run_up_inv, U|congruence|congruence].
Qed.

Lemma store_done path i b x u s :
  at_ease s -> smooth x -> holds s (e_caller (sh_env x)) PUpdateUploads -> sh_storage x = ROk ->
  files s !! path = Some u -> u_state u <> UFinalized ->
  let y := exchange path (CStore i b) x s in
  snd y = AOk /\ at_ease (run (fst (fst y)) s) /\ perms (run (fst (fst y)) s) = perms s /\
  files (run (fst (fst y)) s) !! path = Some (mkUp (u_init u) UInProgress (u_canister u) path).
Proof.
  intros E Sm H St F Z. destruct (before_ease x s Sm E) as ((U1 & G1 & P1) & F1 & H1). set (s1 := run (sh_before x) s) in *.
  rewrite <- F1 in F. rewrite <- (holds_same s s1 _ _ H1) in H.
  destruct (chunk_done (as_call x) path u (next_pend s1) s1 U1 (as_call_undisturbed x Sm) H G1 P1 eq_refl F Z)
    as (A1 & A2 & A3 & A4 & A5 & A6 & A7).
  pose proof (exchange_done path (CStore i b) x s) as X. cbv zeta in X. fold s1 in X. rewrite St in X. cbn [call_op] in X.
  rewrite X by assumption. cbn [fst snd]. rewrite run_app. fold s1. splits; auto; [|congruence].
  unfold at_ease. splits; auto. apply run_up_inv, U1.
Qed.

Lemma stores_done path l : forall u s,
  at_ease s -> Forall (fun y => smooth (snd y) /\ holds s (e_caller (sh_env (snd y))) PUpdateUploads /\ sh_storage (snd y) = ROk /\
    exists i b, fst y = CStore i b) l ->
  files s !! path = Some u -> u_state u <> UFinalized -> u_path u = path ->
  Forall (fun y => snd y = ModelCli.ROk) (fst (transcript path l s)) /\ at_ease (run (snd (transcript path l s)) s) /\
  perms (run (snd (transcript path l s)) s) = perms s /\
  files (run (snd (transcript path l s)) s) !! path = Some (mkUp (u_init u) (if l then u_state u else UInProgress) (u_canister u) path).
Proof.
  induction l as [|[c x] l IH]; intros u s E H F Z Pu; cbn [transcript fst snd].
  - cbn. splits; auto. rewrite F. destruct u. cbn in *. subst. reflexivity.
  - apply Forall_cons in H. destruct H as [(H1 & H2 & H3 & i & b & H4) H]. cbn [fst snd] in *. subst c.
    destruct (store_done path i b x u s E H1 H2 H3 F Z) as (A1 & A2 & A3 & A4). set (y := exchange path (CStore i b) x s) in *.
    destruct (IH (mkUp (u_init u) UInProgress (u_canister u) path) _ A2) as (B1 & B2 & B3 & B4); auto.
    { eapply Forall_impl; [exact H|]. intros z (Z1 & Z2 & Z3). split; [exact Z1|]. split; [|exact Z3]. rewrite (holds_same _ _ _ _ A3). exact Z2. }
    rewrite run_app. splits; auto; [|congruence|].
    + constructor; [|exact B1]. cbn. rewrite A1. reflexivity.
    + rewrite B4. destruct l; reflexivity.
Qed.

(** Whoever may upload uploads any non-empty file up to 2 GiB with one command, if no management call is in progress when it is
    started and the storage canister accepts everything. *)
Theorem C125_command_succeeds h now s0 rd file chunk path cn xs :
  let s := run h s0 in let ok := fun _ : cli_call => ModelCli.ROk in let cs := fst (upload_file rd ok file chunk) in
  let y := transcript path (zip cs xs) s in
  now_at h now s0 -> unlocked h s0 -> status s path = None ->
  file <> [] -> nlen file <= 2147483648 -> 0 < chunk < 2 ^ 63 -> full_reads rd ->
  length xs = length cs -> Forall smooth xs -> Forall (fun x => holds s (e_caller (sh_env x)) PUpdateUploads) xs ->
  (forall (i : nat) x, xs !! i = Some x -> sh_storage x = match i with O => RInitOk cn | S _ => ROk end) ->
  snd (upload_file rd ok file chunk) = UOk /\ Forall (fun z => snd z = ModelCli.ROk) (fst y) /\
  status (run (snd y) s) path = Some UFinalized /\ redirs (run (snd y) s) !! norm_path path = Some (redirection_url cn (norm_path path)).
Proof.
  intros s ok cs y Hn Hu St Ne Sz Ch Fr L Sm H Rs.
  assert (E0 : at_ease s).
  { unfold at_ease. splits; [|eapply unlocked_guards; eauto|apply Hu]. apply reachable_up_inv. destruct Hn as ((caller & url_ok & a & Hi) & _).
    exists caller, url_ok, a, s0, h. auto. }
  assert (F0 : files s !! path = None) by (unfold status in St; destruct (files s !! path); [discriminate|reflexivity]).
  destruct (upload_file rd ok file chunk) as [cs0 r] eqn:Up. subst cs. cbn [fst snd] in *.
  assert (R : r = UOk /\ CFinalize ∈ cs0).
  { unfold upload_file in Up. cbn [ok delivered negb] in Up. destruct (N.eqb_spec chunk 0); [lia|].
    change (2 ^ 63) with 9223372036854775808 in Ch. destruct (N.leb_spec 9223372036854775808 chunk); [lia|].
    rewrite andb_false_r in Up. destruct (send_chunks _ _ _ _ _ _) as [cs1 o] eqn:Sc.
    assert (o = true) as ->.
    { clear -Sc Fr. revert cs1 o Sc. generalize (N.to_nat ((nlen file + chunk + two64 - 1) mod two64 / chunk)) as k. generalize 0 as i.
      intros i k. revert i file. induction k as [|k IH]; intros i rest cs1 o Sc; cbn [send_chunks] in Sc; [injection Sc as _ <-; reflexivity|].
      rewrite Fr in Sc. destruct (_ =? 0); [injection Sc as _ <-; reflexivity|]. cbn [ok delivered] in Sc.
      destruct (send_chunks rd ok chunk k (i + 1) _) as [cs2 o2] eqn:X. injection Sc as _ <-. eapply IH. exact X. }
    cbn in Up. injection Up as <- <-. split; [reflexivity|]. rewrite elem_of_cons, elem_of_app. right. right. left. }
  destruct R as [-> Fin].
  assert (Sz2 : nlen file < 2 ^ 63) by (change (2 ^ 63) with 9223372036854775808; lia).
  destruct (C66_whole_partial _ _ _ _ _ _ Fr Ch Sz2 Up Fin) as (Cat & _ & Cs).
  assert (Cn : chunks cs0 <> []) by (intros X; rewrite X in Cat; cbn in Cat; congruence).
  set (ck := map (fun x => CStore (fst x) (snd x)) (chunks cs0)) in *. rewrite Cs in L. cbn in L. rewrite app_length in L. cbn in L.
  destruct xs as [|x0 xs]; [discriminate L|]. cbn in L. apply Forall_cons in Sm. destruct Sm as [Sm0 Sm]. apply Forall_cons in H. destruct H as [H0 H].
  destruct (exists_last (l := xs)) as (xm & xl & ->); [intros ->; cbn in L; lia|]. rewrite app_length in L. cbn in L.
  apply Forall_app in Sm. destruct Sm as [Sm1 Sm2]. apply Forall_cons in Sm2. destruct Sm2 as [Sm2 _].
  apply Forall_app in H. destruct H as [H1 H2]. apply Forall_cons in H2. destruct H2 as [H2 _].
  assert (R0 : sh_storage x0 = RInitOk cn) by apply (Rs 0%nat x0 eq_refl).
  assert (R1 : Forall (fun x => sh_storage x = ROk) xm).
  { apply Forall_lookup. intros i x X. apply (Rs (S i) x). change ((xm ++ [xl]) !! i = Some x). rewrite lookup_app_l by (eapply lookup_lt_Some; exact X). exact X. }
  assert (R2 : sh_storage xl = ROk).
  { apply (Rs (S (length xm)) xl). change ((xm ++ [xl]) !! length xm = Some xl). rewrite lookup_app_r by lia. rewrite Nat.sub_diag. reflexivity. }
  assert (Z : zip cs0 (x0 :: xm ++ [xl]) = (CInit (nlen file) chunk, x0) :: zip ck xm ++ [(CFinalize, xl)]).
  { rewrite Cs. cbn. rewrite zip_with_app by lia. reflexivity. }
  subst y. rewrite Z. cbn [transcript fst snd]. rewrite transcript_app. cbn [fst snd transcript].
  (* the announcement *)
  destruct (before_ease x0 s Sm0 E0) as ((Ua & Ga & Pa) & Fa & Ha). set (sa := run (sh_before x0) s) in *.
  rewrite <- Fa in F0. rewrite <- (holds_same s sa _ _ Ha) in H0.
  destruct (init_done (as_call x0) path (nlen file) cn (next_pend sa) sa Ua (as_call_undisturbed x0 Sm0) H0 Ga Pa eq_refl F0 Sz)
    as (A1 & A2 & A3 & A4 & A5 & A6 & A7).
  pose proof (exchange_done path (CInit (nlen file) chunk) x0 s) as X. cbv zeta in X. fold sa in X. rewrite R0 in X. cbn [call_op] in X.
  rewrite X by assumption. clear X. cbn [fst snd]. rewrite !(run_app (sh_before x0)). fold sa.
  set (g0 := call_h (as_call x0) (OInitUpload path (nlen file)) (next_pend sa) (RInitOk cn)) in *.
  set (s1 := run g0 sa) in *. assert (E1 : at_ease s1) by (unfold at_ease; splits; auto; apply run_up_inv, Ua).
  assert (Q1 : perms s1 = perms s) by congruence.
  (* the chunks *)
  assert (Hc : Forall (fun y => smooth (snd y) /\ holds s1 (e_caller (sh_env (snd y))) PUpdateUploads /\ sh_storage (snd y) = ROk /\
    exists i b, fst y = CStore i b) (zip ck xm)).
  { apply Forall_lookup. intros i [c x] W. apply lookup_zip_with_Some in W. destruct W as (c' & x' & [= <- <-] & W1 & W2). cbn [fst snd].
    rewrite Forall_lookup in Sm1, H1, R1. splits; eauto. { rewrite (holds_same _ _ _ _ Q1). eapply H1; exact W2. }
    unfold ck in W1. apply list_lookup_fmap_inv in W1. destruct W1 as ([i' b'] & -> & _). eauto. }
  destruct (stores_done path (zip ck xm) _ s1 E1 Hc A1 ltac:(discriminate) eq_refl) as (B1 & B2 & B3 & B4).
  set (t := transcript path (zip ck xm) s1) in *. set (s2 := run (snd t) s1) in *.
  assert (Nn : exists z zs, zip ck xm = z :: zs).
  { destruct ck as [|z ck'] eqn:Y; [apply map_eq_nil in Y; contradiction|]. destruct xm as [|x xm']; [cbn in L; lia|]. eexists _, _. reflexivity. }
  destruct Nn as (z & zs & Nn). rewrite Nn in B4. cbn [u_init u_canister] in B4.
  (* the end *)
  destruct (before_ease xl s2 Sm2 B2) as ((Ue & Ge & Pe) & Fe & He). set (se := run (sh_before xl) s2) in *.
  rewrite <- Fe in B4. rewrite <- (holds_same s se _ _ ltac:(congruence)) in H2.
  destruct (finalize_done (as_call xl) path _ (next_pend se) se Ue (as_call_undisturbed xl Sm2) H2 Ge Pe eq_refl B4 eq_refl)
    as (D1 & D2 & D3 & D4 & D5 & D6 & D7 & D8).
  pose proof (exchange_done path CFinalize xl s2) as X. cbv zeta in X. fold se in X. rewrite R2 in X. cbn [call_op] in X.
  rewrite X by assumption. clear X. cbn [fst snd]. rewrite app_nil_r.
  rewrite <- app_assoc, run_app. fold sa. rewrite run_app. fold s1. rewrite run_app. fold s2. rewrite run_app. fold se.
  splits.
  - reflexivity.
  - constructor; [reflexivity|]. apply Forall_app. split; [exact B1|]. constructor; [reflexivity|constructor].
  - unfold status. rewrite D1. reflexivity.
  - exact D2.
Qed.
Print Assumptions C125_command_succeeds.

(** ** Finished files stay *)

Lemma finished_step said path d e o s w :
  up_inv s -> finished path d s w -> finished path d (fst (step e o s)) (storage_step said o s w).
Proof.
  intros U (u & k & F & Fin & W & K). destruct (not_reply o) as [(id & r & ->)|Nr].
  2: { destruct (step_files e o s U Nr) as (A & _). exists u, k. rewrite A.
       assert (storage_step said o s w = w) as -> by (destruct o; try reflexivity; destruct (Nr _ _ eq_refl)). auto. }
  destruct (pend s !! id) as [p|] eqn:P.
  2: { rewrite resume_none by exact P. cbn. rewrite P. exists u, k. auto. }
  destruct (resume_files e id r s p P) as (A & _). pose proof (up_pend s U _ _ P) as OK.
  unfold finished. rewrite A. cbn [storage_step]. rewrite P. clear A.
  destruct p as [c path' snap|c key i cn path'|c key i cn path'|c key], r; cbn in OK |- *; try (exists u, k; auto; fail).
  - destruct OK as [OK _]. assert (path' <> path) by congruence. exists u, k.
    rewrite lookup_insert_ne, (lookup_insert_ne w) by congruence. auto.
  - destruct OK as (u0 & F0 & S0 & _). assert (key <> path) by (intros ->; congruence).
    exists u, k. rewrite lookup_insert_ne by congruence. splits; auto. destruct (said id); auto. rewrite lookup_alter_ne by congruence. exact W.
  - destruct OK as (u0 & F0 & S0 & _). assert (key <> path) by (intros ->; congruence).
    exists u, k. rewrite lookup_insert_ne, lookup_alter_ne by congruence. auto.
  - destruct OK as (u0 & F0 & S0). assert (key <> path) by (intros ->; congruence).
    exists u, k. rewrite F0, lookup_delete_ne, (lookup_delete_ne w) by congruence. auto.
Qed.

Lemma finished_run said path d h : forall s w, up_inv s -> finished path d s w -> finished path d (run h s) (storage_run said h s w).
Proof.
  induction h as [|[e o] h IH]; intros s w U F; [exact F|]. cbn [run storage_run]. apply IH.
  - apply (run_up_inv [(e, o)]), U.
  - apply finished_step; auto.
Qed.

(** A finished file can be had at its path for ever, whatever happens, unless an upload whose path differs only in the leading
    slash is finished too (see C48_redirection_refuted). *)
Theorem C125_stays_partial said path d h s w :
  reachable s -> finished path d s w ->
  (forall k, status (run h s) k = Some UFinalized -> norm_path k = norm_path path -> k = path) ->
  available path d (run h s) (storage_run said h s w) /\ finished path d (run h s) (storage_run said h s w).
Proof.
  intros Hr F Un. pose proof (reachable_up_inv s Hr) as U. pose proof (finished_run said path d h s w U F) as F'.
  split; [|exact F']. destruct F' as (u & k & Fu & Fin & W & K). pose proof (run_up_inv h s U) as U'.
  destruct (up_final _ U' _ _ Fu Fin) as [url R]. destruct (up_redir _ U' _ _ R) as (k' & u' & K1 & K2 & K3 & ->).
  assert (k' = path) as -> by (apply Un; [unfold status; rewrite K1; cbn; congruence|exact K3]).
  exists (u_canister u), k. assert (u' = u) as -> by congruence. auto.
Qed.
Print Assumptions C125_stays_partial.

(** ** Uploads that cannot succeed *)

Lemma session_finalize digest said path file cs xs reply s rd chunk :
  reachable s -> upload_file rd reply file chunk = (cs, UOk) -> tool_session digest said path file cs xs reply s ->
  exists g1 g2 who i c p id, snd (transcript path (zip cs xs) s) = g1 ++ g2 /\ pend (run g1 s) !! id = Some (PFinalize who path i c p).
Proof.
  intros Hr Up [L R _]. destruct (upload_ok_calls _ _ _ _ _ Up) as (mid & -> & Rf & _). clear Up.
  destruct (exists_last (l := xs)) as (xm & xl & ->); [intros ->; discriminate L|]. rewrite app_length in L. cbn in L. rewrite app_length in L. cbn in L.
  assert (Z : zip (CInit (nlen file) chunk :: mid ++ [CFinalize]) (xm ++ [xl]) = zip (CInit (nlen file) chunk :: mid) xm ++ [(CFinalize, xl)]).
  { change (CInit (nlen file) chunk :: mid ++ [CFinalize]) with ((CInit (nlen file) chunk :: mid) ++ [CFinalize]).
    rewrite zip_with_app by (cbn; lia). reflexivity. }
  rewrite Z in *. rewrite transcript_app in *. cbn [fst snd transcript] in *.
  set (g0 := snd (transcript path (zip (CInit (nlen file) chunk :: mid) xm) s)) in *. set (s2 := run g0 s) in *.
  destruct (exchange path CFinalize xl s2) as [[g3 id3] a3] eqn:E3. cbn [fst snd] in *.
  apply Forall_app in R. destruct R as [_ R]. apply Forall_cons in R. destruct R as [R3 _]. cbn [fst snd] in R3. rewrite Rf in R3. symmetry in R3.
  apply tool_reply_ok in R3. subst a3. destruct (exchange_ok _ _ _ _ _ _ E3) as (g1 & p & i & -> & _ & P & W & _).
  destruct p as [| |who key j c p|]; cbn in W; try contradiction. subst key.
  exists (g0 ++ g1), [(sh_reply xl, OReply i (sh_storage xl))], who, j, c, p, i. rewrite run_app. fold s2. split; [|exact P].
  rewrite app_nil_r, app_assoc. reflexivity.
Qed.

(** A file that was finished before cannot be uploaded again, not even the same one: the command fails. *)
Theorem C125_again digest said rd reply file chunk path cs xs s r :
  reachable s -> status s path = Some UFinalized -> upload_file rd reply file chunk = (cs, r) ->
  tool_session digest said path file cs xs reply s -> r <> UOk.
Proof.
  intros Hr St Up T ->. destruct (session_finalize _ _ _ _ _ _ _ _ _ _ Hr Up T) as (g1 & g2 & who & i & c & p & id & _ & P).
  unfold status in St. destruct (files s !! path) as [u|] eqn:F; [|discriminate]. injection St as St.
  pose proof (C48_finalized_record g1 s path u Hr F St) as F'.
  destruct (up_pend _ (run_up_inv g1 s (reachable_up_inv s Hr)) _ _ P) as (u' & F2 & S2 & _). congruence.
Qed.
Print Assumptions C125_again.

Definition chunkless (path : string) (s : state) : Prop :=
  (forall u, files s !! path = Some u -> u_state u = UInit) /\ forall id who i c p, pend s !! id <> Some (PStore who path i c p).

Lemma chunkless_step path e o s : up_inv s -> o <> OStoreChunk path -> chunkless path s -> chunkless path (fst (step e o s)).
Proof.
  intros U Ho [C1 C2]. split.
  - intros u. destruct (not_reply o) as [(id & r & ->)|Nr]; [|destruct (step_files e o s U Nr) as (-> & _); apply C1].
    destruct (pend s !! id) as [p|] eqn:P; [|rewrite resume_none by exact P; apply C1].
    destruct (resume_files e id r s p P) as (-> & _). pose proof (up_pend s U _ _ P) as OK.
    destruct p as [c path' snap|c key i cn path'|c key i cn path'|c key], r; cbn in OK |- *; try apply C1; intros X.
    + apply lookup_insert_Some in X. destruct X as [[_ <-]|[_ X]]; [reflexivity|apply C1, X].
    + destruct (decide (key = path)) as [->|Hne]; [destruct (C2 _ _ _ _ _ P)|]. rewrite lookup_insert_ne in X by congruence. apply C1, X.
    + destruct (decide (key = path)) as [->|Hne]; [|rewrite lookup_insert_ne in X by congruence; apply C1, X].
      destruct OK as (u0 & F0 & S0 & _). rewrite (C1 _ F0) in S0. discriminate.
    + apply lookup_delete_Some in X. apply C1, X.
  - intros id who i c p P. destruct (step e o s) as [s' a] eqn:S. cbn in P.
    destruct (step_pend_origin _ _ _ _ _ _ _ S P) as [Q|(W & _)]; [exact (C2 _ _ _ _ _ Q)|].
    destruct o; cbn in W; try contradiction. subst. congruence.
Qed.

(** An empty file cannot be uploaded at all: it has no chunks, and without chunks nothing is finalized. *)
Theorem C125_empty_refuted digest said rd reply chunk path cs xs s r :
  let g := snd (transcript path (zip cs xs) s) in
  reachable s -> status s path = None -> upload_file rd reply [] chunk = (cs, r) -> tool_session digest said path [] cs xs reply s ->
  Forall (fun m => snd m <> OStoreChunk path) g -> r <> UOk.
Proof.
  intros g Hr St Up T F ->. destruct (session_finalize _ _ _ _ _ _ _ _ _ _ Hr Up T) as (g1 & g2 & who & i & c & p & id & G & P).
  subst g. rewrite G in F. apply Forall_app in F. destruct F as [F _]. pose proof (reachable_up_inv s Hr) as U.
  assert (Fs : files s !! path = None) by (unfold status in St; destruct (files s !! path); [discriminate|reflexivity]).
  assert (C : chunkless path s).
  { split; [intros u X; congruence|]. intros j w a b q X. destruct (up_pend s U _ _ X) as (u & Y & _). congruence. }
  assert (C1 : chunkless path (run g1 s)).
  { clear -C F U. revert s C U. induction g1 as [|[e o] h IH]; intros s C U; [exact C|]. apply Forall_cons in F. destruct F as [F1 F2].
    cbn [run]. apply (IH F2); [apply chunkless_step; auto|apply (run_up_inv [(e, o)]), U]. }
  destruct (up_pend _ (run_up_inv g1 s U) _ _ P) as (u' & F2 & S2 & _). rewrite (proj1 C1 _ F2) in S2. discriminate.
Qed.
Print Assumptions C125_empty_refuted.

(** Two chunks; in between a transfer and a mint that is turned away. *)
Definition fine_shot (dt : N) (r : reply) : shot :=
  mkShot [(from_ alice dt, OTransfer [xfer bob 1])] (from_ admin (dt + 1)) [(from_ admin (dt + 2), mint3)] (from_ admin (dt + 3)) r.
Definition fine_shots : list shot := [fine_shot 10 (RInitOk [7]); fine_shot 20 ROk; fine_shot 30 ROk; fine_shot 40 ROk].
Definition fine_calls : list cli_call := [CInit 3 2; CStore 0 [65; 66]; CStore 1 [67]; CFinalize].
Definition fine_said (id : N) : call_payload :=
  if id =? 0 then PHash [65; 66; 67] else if id =? 1 then PChunk 0 [65; 66] else if id =? 2 then PChunk 1 [67] else PNothing.

Example C125_example :
  let rd := fun _ n m => Some (N.min n m) in let g := snd (transcript "a.png" (zip fine_calls fine_shots) demo2) in
  unlocked demo2_h demo0 /\ status demo2 "a.png" = None /\ Forall smooth fine_shots /\ holds demo2 admin PUpdateUploads /\
  upload_file rd (fun _ => ModelCli.ROk) [65; 66; 67] 2 = (fine_calls, UOk) /\
  map (fun y => (snd (fst y), snd y)) (fst (transcript "a.png" (zip fine_calls fine_shots) demo2)) =
    [(Some 0, ModelCli.ROk); (Some 1, ModelCli.ROk); (Some 2, ModelCli.ROk); (Some 3, ModelCli.ROk)] /\
  honest id fine_said g demo2 ∅ /\ Forall (fun m => snd m <> OCancel "a.png") g /\
  redirs (run g demo2) !! "/a.png"%string = Some (redirection_url [7] "/a.png") /\
  k_final <$> storage_run fine_said g demo2 ∅ !! ([7], "a.png"%string) = Some (Some [65; 66; 67]).
Proof.
  cbv zeta. splits.
  - split; [|vm_compute; reflexivity]. apply calm_no_upgrade. unfold demo2_h. repeat constructor; discriminate.
  - vm_compute. reflexivity.
  - repeat constructor; discriminate.
  - exists all_permissions. split; [vm_compute; reflexivity|]. vm_compute. set_solver.
  - reflexivity.
  - vm_compute. reflexivity.
  - vm_compute. repeat split. eexists. split; reflexivity.
  - vm_compute. repeat constructor; discriminate.
  - vm_compute. reflexivity.
  - vm_compute. reflexivity.
Qed.

(** A second run with the same file, and a run with an empty one. *)
Example C125_fails_example :
  let g := snd (transcript "a.png" (zip fine_calls fine_shots) demo2) in
  status (run g demo2) "a.png" = Some UFinalized /\
  map snd (fst (transcript "a.png" (zip fine_calls fine_shots) (run g demo2))) = [ModelCli.RErr; ModelCli.RErr; ModelCli.RErr; ModelCli.RErr] /\
  map snd (fst (transcript "b.png" (zip [CInit 0 2; CFinalize] fine_shots) demo2)) = [ModelCli.ROk; ModelCli.RErr].
Proof. cbv zeta. splits; vm_compute; reflexivity. Qed.

(** ** C126: a document is uploaded, a token minted with its URL *)

Lemma hex_string_text b : hex_string b = hex_text b.
Proof. induction b as [|x b IH]; [reflexivity|]. cbn [hex_string hex_text]. rewrite IH. reflexivity. Qed.

Lemma length_app_s (x t : string) : String.length (x +:+ t) = (String.length x + String.length t)%nat.
Proof.
  induction x as [|c x IH]; [reflexivity|]. change (S (String.length (x +:+ t)) = S (String.length x + String.length t)). rewrite IH. reflexivity.
Qed.
Lemma app_inj_r (a b t : string) : a +:+ t = b +:+ t -> a = b.
Proof.
  revert b. induction a as [|c a IH]; intros [|d b] H; [reflexivity|..].
  - exfalso. apply (f_equal String.length) in H. rewrite !length_app_s in H. cbn in H. lia.
  - exfalso. apply (f_equal String.length) in H. rewrite !length_app_s in H. cbn in H. lia.
  - change (String c (a +:+ t) = String d (b +:+ t)) in H. injection H as -> H. rewrite (IH b H). reflexivity.
Qed.

(** Different documents go to different paths (the digest is made of bytes and does not collide on them). *)
Theorem C126_paths digest d1 d2 :
  (forall d, Forall (fun x => x < 256) (digest d)) -> (digest d1 = digest d2 -> d1 = d2) ->
  document_path digest d1 = document_path digest d2 -> d1 = d2.
Proof.
  intros B Inj H. apply Inj. unfold document_path in H. injection H as H. apply app_inj_r in H. rewrite !hex_string_text in H.
  apply (f_equal hex_decode) in H. rewrite !hex_decode_text in H by apply B. congruence.
Qed.
Print Assumptions C126_paths.

Lemma document_path_norm digest d : norm_path (document_path digest d) = document_path digest d.
Proof. reflexivity. Qed.

Lemma document_path_free digest d : ~ reserved (document_path digest d).
Proof.
  unfold reserved, document_path. generalize (hex_string (digest d)) as x. intros x H. rewrite !elem_of_cons, elem_of_nil in H.
  assert (N : forall t : string, t ∈ ["logs"; "traces"; "metrics"]%string -> x +:+ ".json" <> t).
  { intros t T E. rewrite !elem_of_cons, elem_of_nil in T.
    destruct x as [|c1 [|c2 [|c3 x]]]; destruct T as [->|[->|[->|[]]]]; try discriminate E.
    all: apply (f_equal String.length) in E; rewrite length_app_s in E; cbn in E; lia. }
  destruct H as [H|[H|[H|[]]]]; injection H as H; eapply N; try exact H; rewrite !elem_of_cons; auto.
Qed.

(** The workflow of the README: `upload-metadata` prints a URL, `mint --icrc97_url` is given this URL.  If the announcement of the
    document was accepted and nobody interfered (see C125), the token minted at any later time belongs to the account named,
    carries the URL, and a request for the path of the URL is sent on, certified, to a storage canister that keeps the document,
    which is valid ICRC-97 metadata.
    Missing: refused announcements (C125_upload_refuted) and takeovers by another spelling of the path
    (C48_redirection_refuted). *)
Theorem C126_document_partial digest said parse rd reply doc chunk path cs xs s w self h e a l s' id hs :
  let g := snd (transcript path (zip cs xs) s) in
  let w' := storage_run said h (run g s) (storage_run said g s w) in
  reachable s -> upload_document parse digest rd reply doc chunk = Some (path, (cs, UOk)) ->
  tool_session digest said path doc cs xs reply s -> honest digest said g s w -> (forall d, digest d = digest doc -> d = doc) ->
  reply (CInit (nlen doc) chunk) = ModelCli.ROk -> Forall (fun m => snd m <> OCancel path) g ->
  ma_url a = Some (answer_url self path) -> run_mint e a l (run h (run g s)) = (s', Some id) ->
  (forall k, status s' k = Some UFinalized -> norm_path k = path -> k = path) -> http_reachable s' hs ->
  (exists acc, named_account a acc /\ owner_of s' id = Some acc) /\
  meta_of s' id "icrc97:metadata" = Some (VArray [VText (answer_url self path)]) /\
  (exists prefix, answer_url self path = prefix +:+ path) /\
  (exists c k, http_request path hs = RRedirect (redirection_url c path) (h_tree hs) /\ vouched path hs (http_request path hs) /\
     w' !! (c, path) = Some k /\ k_final k = Some doc) /\
  exists j, parse doc = Some j /\ good_metadata j.
Proof.
  intros g w' Hr Up T Hs Inj Ri F Mu Mi Un Hh. unfold upload_document in Up.
  destruct (parse doc) as [j|]; [|discriminate]. destruct (validate_metadata j) eqn:V; [|discriminate].
  injection Up as Hp Up. pose proof (document_path_norm digest doc) as Np. pose proof (document_path_free digest doc) as Fr. rewrite Hp in Np, Fr.
  destruct (C125_upload_partial digest said rd reply doc chunk path cs xs s w Hr Up T Hs Inj Ri F) as [_ Fin]. fold g in Fin.
  assert (Hr1 : reachable (run g s)).
  { destruct Hr as (c0 & u0 & a0 & s0 & h0 & Hi & ->). exists c0, u0, a0, s0, (h0 ++ g). rewrite run_app. auto. }
  assert (Hr2 : reachable (run h (run g s))).
  { destruct Hr1 as (c0 & u0 & a0 & s0 & h0 & Hi & ->). exists c0, u0, a0, s0, (h0 ++ h). rewrite run_app. auto. }
  pose proof (C123_minted _ _ _ _ _ _ Hr2 Mi) as (acc & meta & N & R & _ & O & _ & M).
  assert (Rm : exists r, s' = fst (step e (OMint [r]) (run h (run g s)))).
  { unfold run_mint in Mi. destruct (mint_command a l) as [r rest| |]; try discriminate. exists r.
    destruct (step e (OMint [r]) (run h (run g s))) as [s2 an]. injection Mi as <- _. reflexivity. }
  destruct Rm as [r Rm]. set (h' := h ++ [(e, OMint [r])]).
  assert (Rs : run h' (run g s) = s') by (unfold h'; rewrite run_app; symmetry; exact Rm).
  assert (Rw : storage_run said h' (run g s) (storage_run said g s w) = w') by (unfold h'; rewrite storage_run_app; reflexivity).
  destruct (C125_stays_partial said path doc h' (run g s) (storage_run said g s w) Hr1 Fin) as [(c & k & A1 & A2 & A3) _].
  { rewrite Rs. intros k S K. apply Un; [exact S|]. rewrite K. exact Np. }
  rewrite Rs, Rw, Np in *. destruct (reachable_router _ _ Hh) as [R1 R2].
  assert (E : http_request path hs = serve_asset path hs).
  { unfold http_request, reserved in *. rewrite !elem_of_cons in Fr.
    destruct (String.eqb path "/logs") eqn:E1; [apply String.eqb_eq in E1; tauto|].
    destruct (String.eqb path "/traces") eqn:E2; [apply String.eqb_eq in E2; tauto|].
    destruct (String.eqb path "/metrics") eqn:E3; [apply String.eqb_eq in E3; tauto|reflexivity]. }
  splits.
  - exists acc. auto.
  - rewrite M. destruct R as [u U|es q U|U]; [|congruence..]. rewrite Mu in U. injection U as <-. reflexivity.
  - unfold answer_url. rewrite Np. exists ("https://" +:+ (principal_text self +:+ ".raw.icp0.io")). rewrite <- !app_assoc_s. reflexivity.
  - exists c, k. rewrite E. unfold serve_asset. rewrite R1, A1. splits; auto. cbn. split.
    + apply R2. intros X. rewrite X, lookup_empty in A1. discriminate.
    + rewrite R1. exact A1.
  - exists j. split; [reflexivity|]. apply C76_validator_exact, V.
Qed.
Print Assumptions C126_document_partial.

(** Refuted: the command is not repeatable.  For a document that is already there it fails, so its URL cannot be had again. *)
Theorem C126_again_refuted digest said parse rd reply doc chunk path cs xs s r :
  reachable s -> status s (document_path digest doc) = Some UFinalized ->
  upload_document parse digest rd reply doc chunk = Some (path, (cs, r)) -> tool_session digest said path doc cs xs reply s -> r <> UOk.
Proof.
  intros Hr St Up T. unfold upload_document in Up. destruct (parse doc); [|discriminate]. destruct (validate_metadata j); [|discriminate].
  injection Up as <- Up. eapply C125_again; eauto.
Qed.
Print Assumptions C126_again_refuted.

(** A document of three bytes, uploaded in two chunks, and a token for it. *)
Example C126_example :
  let digest := fun d : bytes => d in let doc := [65; 66; 67] in let path := document_path digest doc in
  let parse := fun d : bytes => Some (JObj [("name"%string, JStr "cat")]) in
  let g := snd (transcript path (zip fine_calls fine_shots) demo2) in
  let a := mkMintArgs (principal_text carol) "Cat" None None (Some (answer_url [5] path)) false [] in
  path = "/414243.json"%string /\
  upload_document parse digest (fun _ n m => Some (N.min n m)) (fun _ => ModelCli.ROk) doc 2 = Some (path, (fine_calls, UOk)) /\
  map snd (fst (transcript path (zip fine_calls fine_shots) demo2)) = [ModelCli.ROk; ModelCli.ROk; ModelCli.ROk; ModelCli.ROk] /\
  honest digest fine_said g demo2 ∅ /\ Forall (fun m => snd m <> OCancel path) g /\
  (let x := run_mint (from_ admin 60) a [] (run g demo2) in
   snd x = Some 4 /\ owner_of (fst x) 4 = Some (acct carol) /\
   meta_of (fst x) 4 "icrc97:metadata" = Some (VArray [VText (answer_url [5] path)]) /\
   redirs (fst x) !! path = Some (redirection_url [7] path)) /\
  k_final <$> storage_run fine_said g demo2 ∅ !! ([7], path) = Some (Some doc).
Proof.
  cbv zeta. splits.
  - reflexivity.
  - vm_compute. reflexivity.
  - vm_compute. reflexivity.
  - vm_compute. repeat split. eexists. split; reflexivity.
  - vm_compute. repeat constructor; discriminate.
  - vm_compute. reflexivity.
  - vm_compute. reflexivity.
  - vm_compute. reflexivity.
  - vm_compute. reflexivity.
  - vm_compute. reflexivity.
Qed.
