(** C105: uploads can be completed. *)
From Verif Require Import Base ModelPrincipal ModelState ModelIcrc7 ModelIcrc37 ModelManagement ModelLifecycle
  ModelQueries ModelStep ModelHttp ProofsItems ProofsManage ProofsMicro Spec ProofsCore ProofsTime ProofsLock ProofsUploads Scenario
  PropertiesUploads PropertiesHttp PropertiesLive.

(** A call of the token standards. *)
Definition token_call (o : op) : Prop :=
  match o with
  | OTransfer _ | OApproveTokens _ | OApproveCollection _ | ORevokeTokens _ | ORevokeCollection _ | OTransferFrom _ => True
  | _ => False
  end.

(** Neither a reply nor an upgrade. *)
Definition call (o : op) : Prop := o <> OUpgrade /\ forall id r, o <> OReply id r.

(** One upload call: who makes it, what happens while it waits, the message of the reply, what happens afterwards. *)
Record upload_call := mkCall { uc_env : env; uc_between : history; uc_reply : env; uc_after : history }.

(** While it waits any calls may come in, refused management calls included; afterwards any calls of the token standards. *)
Definition undisturbed (c : upload_call) : Prop :=
  Forall (fun x => call (snd x)) (uc_between c) /\ Forall (fun x => token_call (snd x)) (uc_after c).

Definition call_h (c : upload_call) (o : op) (id : N) (r : reply) : history :=
  (uc_env c, o) :: uc_between c ++ (uc_reply c, OReply id r) :: uc_after c.

(** The chunks of a file, the first waiting call being number [id]. *)
Fixpoint chunks_h (path : string) (id : N) (l : list upload_call) : history :=
  match l with
  | [] => []
  | c :: r => call_h c (OStoreChunk path) id ROk ++ chunks_h path (id + 1) r
  end.

(** A whole upload: [init_upload] accepted by storage canister [cn], the chunks stored, [finalize_upload] accepted. *)
Definition upload_run (path : string) (size : N) (cn : principal) (c1 : upload_call) (l : list upload_call) (c3 : upload_call)
  (id : N) : history :=
  call_h c1 (OInitUpload path size) id (RInitOk cn) ++ chunks_h path (id + 1) l ++
  call_h c3 (OFinalize path) (id + 1 + nlen l) ROk.

(** What uploads depend on is the same. *)
Definition same_uploads (s s' : state) : Prop :=
  files s' = files s /\ subs s' = subs s /\ redirs s' = redirs s /\ perms s' = perms s /\ guards s' = guards s /\
  pend s' = pend s /\ next_pend s' = next_pend s.

Lemma same_uploads_trans a b c : same_uploads a b -> same_uploads b c -> same_uploads a c.
Proof. intros (A1&A2&A3&A4&A5&A6&A7) (B1&B2&B3&B4&B5&B6&B7). unfold same_uploads. repeat split; congruence. Qed.

Lemma step_same_uploads e o s : (token_call o \/ (call o /\ guards s <> ∅)) -> same_uploads s (fst (step e o s)).
Proof.
  intros H. apply (step_rel (fun a => token_call o \/ (call o /\ guards a <> ∅)) same_uploads e o s); [|apply same_uploads_trans| |exact H].
  - intros a. repeat split.
  - clear H s. intros s s' P M. assert (R : same_uploads s s').
    { micro_split M; try (repeat split; reflexivity); exfalso; destruct P as [P|[[P1 P2] P3]];
        try contradiction; try congruence; eauto.
      - destruct o; try contradiction; naive_solver.
      - destruct o; try contradiction; naive_solver. }
    split; [|exact R]. destruct R as (_&_&_&_&->&_). exact P.
Qed.

Lemma run_same_uploads h : forall s, Forall (fun x => token_call (snd x)) h \/ (Forall (fun x => call (snd x)) h /\ guards s <> ∅) ->
  same_uploads s (run h s).
Proof.
  induction h as [|[e o] h IH]; intros s H; [repeat split|]. cbn [run].
  assert (S : same_uploads s (fst (step e o s))).
  { apply step_same_uploads. destruct H as [H|[H G]]; apply Forall_cons in H; destruct H; auto. }
  eapply same_uploads_trans; [exact S|]. apply IH. destruct S as (_&_&_&_&->&_).
  destruct H as [H|[H G]]; apply Forall_cons in H; destruct H; auto.
Qed.

Lemma trace_app h1 h2 s : trace (h1 ++ h2) s = trace h1 s ++ trace h2 (run h1 s).
Proof. revert s. induction h1 as [|[e o] h IH]; intros s; [reflexivity|]. simpl. destruct (step e o s). simpl. rewrite IH. reflexivity. Qed.

(** Every reply that arrives is answered with success. *)
Definition replies_ok (tr : list event) : Prop := Forall (fun ev => forall id r, ev_op ev = OReply id r -> ev_ans ev = AOk) tr.

Lemma replies_ok_calls h s : Forall (fun x => call (snd x)) h -> replies_ok (trace h s).
Proof.
  revert s. induction h as [|[e o] h IH]; intros s F; [constructor|]. apply Forall_cons in F. destruct F as [[_ F1] F2].
  simpl. destruct (step e o s). constructor; [|apply IH, F2]. cbn. intros id r E. destruct (F1 _ _ E).
Qed.

Lemma token_calls h : Forall (fun x : env * op => token_call (snd x)) h -> Forall (fun x => call (snd x)) h.
Proof. intros F. eapply Forall_impl; [exact F|]. intros [e o] H. cbn in *. split; destruct o; try contradiction; discriminate. Qed.

Lemma call_done c o id r s p first :
  undisturbed c -> holds s (e_caller (uc_env c)) PUpdateUploads -> guards s = ∅ -> pend s = ∅ -> next_pend s = id ->
  step (uc_env c) o s = ans_upload (upload_entry (uc_env c) s first) ->
  call o ->
  first (set_guards {[e_caller (uc_env c)]} s) = (set_guards {[e_caller (uc_env c)]} s, inr p) ->
  pending_caller p = e_caller (uc_env c) ->
  (forall x, snd (continue (e_now (uc_reply c)) p r x) = Some (MOk tt) /\
     perms (fst (continue (e_now (uc_reply c)) p r x)) = perms x /\ guards (fst (continue (e_now (uc_reply c)) p r x)) = guards x /\
     pend (fst (continue (e_now (uc_reply c)) p r x)) = pend x /\ next_pend (fst (continue (e_now (uc_reply c)) p r x)) = next_pend x) ->
  let s4 := run (call_h c o id r) s in
  exists x, files x = files s /\ subs x = subs s /\ redirs x = redirs s /\
    files s4 = files (fst (continue (e_now (uc_reply c)) p r x)) /\ subs s4 = subs (fst (continue (e_now (uc_reply c)) p r x)) /\
    redirs s4 = redirs (fst (continue (e_now (uc_reply c)) p r x)) /\
    perms s4 = perms s /\ guards s4 = ∅ /\ pend s4 = ∅ /\ next_pend s4 = id + 1 /\
    snd (step (uc_env c) o s) = APending /\ replies_ok (trace (call_h c o id r) s).
Proof.
  intros [U1 U2] H G P N S Co F Pc C. cbv zeta.
  assert (S1 : step (uc_env c) o s =
    (set_next_pend (id + 1) (set_pend {[id := p]} (set_guards {[e_caller (uc_env c)]} s)), APending)).
  { rewrite S. unfold upload_entry. rewrite (proj2 (holds_iff _ _ _) H), guard_new_spec. rewrite decide_True by exact G.
    rewrite F. cbn. rewrite P, N. reflexivity. }
  clear S F. set (s1 := set_next_pend (id + 1) (set_pend {[id := p]} (set_guards {[e_caller (uc_env c)]} s))) in *.
  assert (Q2 : same_uploads s1 (run (uc_between c) s1)).
  { apply run_same_uploads. right. split; [exact U1|]. unfold s1. cbn. apply non_empty_singleton_L. }
  unfold call_h. cbn [run trace]. rewrite S1. cbn [fst snd].
  set (s2 := run (uc_between c) s1) in *. destruct Q2 as (A1&A2&A3&A4&A5&A6&A7). destruct (C s2) as (C1&C2&C3&C4&C5).
  set (y := continue (e_now (uc_reply c)) p r s2) in *.
  assert (S3 : step (uc_reply c) (OReply id r) s2 =
    (set_pend (delete id (pend (fst y))) (guard_drop (pending_caller p) (fst y)), AOk)).
  { cbn [step]. unfold resume. rewrite A6. unfold s1 at 1. cbn [pend set_next_pend set_pend]. rewrite lookup_singleton. fold y.
    destruct y as [y1 y2]. cbn in C1. rewrite C1. reflexivity. }
  set (s3 := set_pend (delete id (pend (fst y))) (guard_drop (pending_caller p) (fst y))) in *.
  assert (Q4 : same_uploads s3 (run (uc_after c) s3)) by (apply run_same_uploads; left; exact U2).
  assert (R4 : run (uc_between c ++ (uc_reply c, OReply id r) :: uc_after c) s1 = run (uc_after c) s3).
  { rewrite run_app. fold s2. cbn [run]. rewrite S3. reflexivity. }
  rewrite R4. destruct Q4 as (B1&B2&B3&B4&B5&B6&B7).
  exists s2. split; [rewrite A1; reflexivity|]. split; [rewrite A2; reflexivity|]. split; [rewrite A3; reflexivity|].
  split; [rewrite B1; reflexivity|]. split; [rewrite B2; reflexivity|]. split; [rewrite B3; reflexivity|].
  split. { rewrite B4. unfold s3. cbn. rewrite C2, A4. reflexivity. }
  split. { rewrite B5. unfold s3. cbn. rewrite C3, A5, Pc. unfold s1. cbn. set_solver. }
  split. { rewrite B6. unfold s3. cbn. rewrite C4, A6. unfold s1. cbn. apply delete_singleton. }
  split. { rewrite B7. unfold s3. cbn. rewrite C5, A7. reflexivity. }
  split; [reflexivity|]. constructor.
  - cbn. intros i q E. destruct Co as [_ Co]. destruct (Co _ _ E).
  - rewrite trace_app. apply Forall_app. split; [apply replies_ok_calls; exact U1|]. fold s2. cbn [trace]. rewrite S3.
    constructor; [reflexivity|]. apply replies_ok_calls, token_calls, U2.
Qed.

(** ** C105 *)

Lemma init_done c path size cn id s :
  up_inv s -> undisturbed c -> holds s (e_caller (uc_env c)) PUpdateUploads -> guards s = ∅ -> pend s = ∅ -> next_pend s = id ->
  files s !! path = None -> size <= 2147483648 ->
  let s4 := run (call_h c (OInitUpload path size) id (RInitOk cn)) s in
  files s4 !! path = Some (mkUp (e_now (uc_reply c)) UInit cn path) /\ perms s4 = perms s /\ guards s4 = ∅ /\ pend s4 = ∅ /\
  next_pend s4 = id + 1 /\ snd (step (uc_env c) (OInitUpload path size) s) = APending /\
  replies_ok (trace (call_h c (OInitUpload path size) id (RInitOk cn)) s).
Proof.
  intros U D H G P N F Z. cbv zeta.
  destruct (call_done c (OInitUpload path size) id (RInitOk cn) s (PInit (e_caller (uc_env c)) path (subs s))
    (init_upload_first (uc_env c) path size)) as (x & X1 & X2 & X3 & Y1 & Y2 & Y3 & Y4 & Y5 & Y6 & Y7 & Y8 & Y9); auto.
  - split; [discriminate|intros ? ?; discriminate].
  - unfold init_upload_first. rewrite contains_path_true by (cbn; apply (up_path s U)).
    cbn [files set_guards]. rewrite bool_decide_eq_false_2 by (rewrite F; intros [? E]; discriminate).
    unfold max_file_size. destruct (N.ltb_spec 2147483648 size); [lia|]. reflexivity.
  - rewrite Y1. cbn. rewrite lookup_insert. auto 10.
Qed.

Lemma chunk_done c path u id s :
  up_inv s -> undisturbed c -> holds s (e_caller (uc_env c)) PUpdateUploads -> guards s = ∅ -> pend s = ∅ -> next_pend s = id ->
  files s !! path = Some u -> u_state u <> UFinalized ->
  let s4 := run (call_h c (OStoreChunk path) id ROk) s in
  files s4 !! path = Some (mkUp (u_init u) UInProgress (u_canister u) path) /\ perms s4 = perms s /\ guards s4 = ∅ /\ pend s4 = ∅ /\
  next_pend s4 = id + 1 /\ snd (step (uc_env c) (OStoreChunk path) s) = APending /\
  replies_ok (trace (call_h c (OStoreChunk path) id ROk) s).
Proof.
  intros U D H G P N F Z. cbv zeta.
  destruct (call_done c (OStoreChunk path) id ROk s (PStore (e_caller (uc_env c)) path (u_init u) (u_canister u) (u_path u))
    (store_chunk_first (uc_env c) path)) as (x & X1 & X2 & X3 & Y1 & Y2 & Y3 & Y4 & Y5 & Y6 & Y7 & Y8 & Y9); auto.
  - split; [discriminate|intros ? ?; discriminate].
  - unfold store_chunk_first. cbn [files set_guards subs]. rewrite F. rewrite bool_decide_eq_true_2 by (eapply up_subs; eauto).
    destruct (u_state u); [reflexivity|reflexivity|congruence].
  - rewrite Y1. cbn. rewrite lookup_insert, (up_path s U _ _ F). auto 10.
Qed.

Lemma finalize_done c path u id s :
  up_inv s -> undisturbed c -> holds s (e_caller (uc_env c)) PUpdateUploads -> guards s = ∅ -> pend s = ∅ -> next_pend s = id ->
  files s !! path = Some u -> u_state u = UInProgress ->
  let s4 := run (call_h c (OFinalize path) id ROk) s in
  files s4 !! path = Some (mkUp (u_init u) UFinalized (u_canister u) path) /\
  redirs s4 !! norm_path path = Some (redirection_url (u_canister u) (norm_path path)) /\
  perms s4 = perms s /\ guards s4 = ∅ /\ pend s4 = ∅ /\
  next_pend s4 = id + 1 /\ snd (step (uc_env c) (OFinalize path) s) = APending /\
  replies_ok (trace (call_h c (OFinalize path) id ROk) s).
Proof.
  intros U D H G P N F Z. cbv zeta.
  destruct (call_done c (OFinalize path) id ROk s (PFinalize (e_caller (uc_env c)) path (u_init u) (u_canister u) (u_path u))
    (finalize_upload_first (uc_env c) path)) as (x & X1 & X2 & X3 & Y1 & Y2 & Y3 & Y4 & Y5 & Y6 & Y7 & Y8 & Y9); auto.
  - split; [discriminate|intros ? ?; discriminate].
  - unfold finalize_upload_first. cbn [files set_guards subs]. rewrite F, Z. rewrite bool_decide_eq_true_2 by (eapply up_subs; eauto).
    reflexivity.
  - rewrite Y1, Y3. cbn. rewrite !lookup_insert, (up_path s U _ _ F). rewrite lookup_insert. auto 10.
Qed.

Lemma chunks_done path l : forall u id s,
  up_inv s -> Forall undisturbed l -> Forall (fun c => holds s (e_caller (uc_env c)) PUpdateUploads) l ->
  guards s = ∅ -> pend s = ∅ -> next_pend s = id -> files s !! path = Some u -> u_state u <> UFinalized -> u_path u = path ->
  let s4 := run (chunks_h path id l) s in
  files s4 !! path = Some (mkUp (u_init u) (if l then u_state u else UInProgress) (u_canister u) path) /\ perms s4 = perms s /\
  guards s4 = ∅ /\ pend s4 = ∅ /\ next_pend s4 = id + nlen l /\ replies_ok (trace (chunks_h path id l) s).
Proof.
  induction l as [|c l IH]; intros u id s U D H G P N F Z Pu; cbv zeta; cbn [chunks_h].
  - cbn. rewrite F. destruct u. cbn in *. subst. splits; auto; [unfold nlen; cbn; lia|constructor].
  - apply Forall_cons in D. destruct D as [D1 D2]. apply Forall_cons in H. destruct H as [H1 H2].
    destruct (chunk_done c path u id s U D1 H1 G P N F Z) as (A1 & A2 & A3 & A4 & A5 & A6 & A7).
    rewrite run_app, trace_app.
    destruct (IH (mkUp (u_init u) UInProgress (u_canister u) path) (id + 1) (run (call_h c (OStoreChunk path) id ROk) s))
      as (B1 & B2 & B3 & B4 & B5 & B6); auto.
    + apply run_up_inv, U.
    + eapply Forall_impl; [exact H2|]. intros c'. cbn. rewrite (holds_same _ _ _ _ A2). auto.
    + rewrite B1, B2, B3, B4, B5, A2. cbn. splits; auto.
      * destruct l; reflexivity.
      * unfold nlen. cbn [length]. lia.
      * apply Forall_app. auto.
Qed.

Lemma call_h_no_upgrade c o id r : undisturbed c -> o <> OUpgrade -> Forall (fun x => snd x <> OUpgrade) (call_h c o id r).
Proof.
  intros [U1 U2] Ho. unfold call_h. constructor; [exact Ho|]. apply Forall_app. split.
  - eapply Forall_impl; [exact U1|]. intros x [H _]. exact H.
  - constructor; [discriminate|]. apply token_calls in U2. eapply Forall_impl; [exact U2|]. intros x [H _]. exact H.
Qed.

Lemma chunks_h_no_upgrade path l : forall id, Forall undisturbed l -> Forall (fun x => snd x <> OUpgrade) (chunks_h path id l).
Proof.
  induction l as [|c l IH]; intros id F; [constructor|]. apply Forall_cons in F. destruct F as [F1 F2]. cbn [chunks_h].
  apply Forall_app. split; [apply call_h_no_upgrade; [exact F1|discriminate]|apply IH, F2].
Qed.

Lemma upload_run_done s path size cn c1 c2 l c3 :
  let g := upload_run path size cn c1 (c2 :: l) c3 (next_pend s) in
  up_inv s -> guards s = ∅ -> pend s = ∅ ->
  status s path = None -> size <= 2147483648 ->
  Forall undisturbed (c1 :: c2 :: l ++ [c3]) ->
  Forall (fun c => holds s (e_caller (uc_env c)) PUpdateUploads) (c1 :: c2 :: l ++ [c3]) ->
  status (run g s) path = Some UFinalized /\ Forall (fun x => snd x <> OUpgrade) g /\ pend (run g s) = ∅ /\
  redirs (run g s) !! norm_path path = Some (redirection_url cn (norm_path path)) /\ replies_ok (trace g s).
Proof.
  intros g U G P St Sz D H.
  assert (F : files s !! path = None).
  { unfold status in St. destruct (files s !! path); [discriminate|reflexivity]. }
  apply Forall_cons in D. destruct D as [D1 D]. apply Forall_cons in H. destruct H as [H1 H].
  change (c2 :: l ++ [c3]) with ((c2 :: l) ++ [c3]) in D, H.
  apply Forall_app in D. destruct D as [D2 D3]. apply Forall_app in H. destruct H as [H2 H3].
  apply Forall_cons in D3. destruct D3 as [D3 _]. apply Forall_cons in H3. destruct H3 as [H3 _].
  destruct (init_done c1 path size cn (next_pend s) s U D1 H1 G P eq_refl F Sz) as (A1 & A2 & A3 & A4 & A5 & A6 & A7).
  set (s1 := run (call_h c1 (OInitUpload path size) (next_pend s) (RInitOk cn)) s) in *.
  assert (U1 : up_inv s1) by apply run_up_inv, U.
  assert (H2' : Forall (fun c => holds s1 (e_caller (uc_env c)) PUpdateUploads) (c2 :: l)).
  { eapply Forall_impl; [exact H2|]. intros c' X. rewrite (holds_same _ _ _ _ A2). exact X. }
  destruct (chunks_done path (c2 :: l) (mkUp (e_now (uc_reply c1)) UInit cn path) (next_pend s + 1) s1 U1 D2 H2' A3 A4 A5 A1
    ltac:(discriminate) eq_refl) as (B1 & B2 & B3 & B4 & B5 & B6).
  set (s2 := run (chunks_h path (next_pend s + 1) (c2 :: l)) s1) in *. cbn [u_init u_canister] in B1.
  assert (H3' : holds s2 (e_caller (uc_env c3)) PUpdateUploads).
  { rewrite (holds_same s1 s2), (holds_same s s1) by assumption. exact H3. }
  destruct (finalize_done c3 path (mkUp (e_now (uc_reply c1)) UInProgress cn path) (next_pend s + 1 + nlen (c2 :: l)) s2
    ltac:(apply run_up_inv, U1) D3 H3' B3 B4 B5 B1 eq_refl) as (E1 & E2 & E3 & E4 & E5 & E6 & E7 & E8).
  assert (R : run g s = run (call_h c3 (OFinalize path) (next_pend s + 1 + nlen (c2 :: l)) ROk) s2).
  { unfold g, upload_run. rewrite !run_app. reflexivity. }
  assert (T : replies_ok (trace g s)).
  { unfold g, upload_run. rewrite !trace_app. apply Forall_app. split; [exact A7|]. apply Forall_app. split; [exact B6|exact E8]. }
  rewrite R. splits; auto.
  - unfold status. rewrite E1. reflexivity.
  - unfold g, upload_run. apply Forall_app. split; [apply call_h_no_upgrade; [exact D1|discriminate]|]. apply Forall_app.
    split; [apply chunks_h_no_upgrade; exact D2|apply call_h_no_upgrade; [exact D3|discriminate]].
Qed.

(** Whoever may upload completes the upload of a new file, in any number of chunks, if no other management call is in
    progress at the start and the storage canister accepts everything: whatever other calls arrive while the upload calls
    wait, and whatever is done with tokens in between. *)
Theorem C105_upload_completes h now s0 path size cn c1 c2 l c3 :
  let s := run h s0 in
  let g := upload_run path size cn c1 (c2 :: l) c3 (next_pend s) in
  now_at h now s0 -> unlocked h s0 ->
  status s path = None -> size <= 2147483648 ->
  Forall undisturbed (c1 :: c2 :: l ++ [c3]) ->
  Forall (fun c => holds s (e_caller (uc_env c)) PUpdateUploads) (c1 :: c2 :: l ++ [c3]) ->
  status (run g s) path = Some UFinalized /\ unlocked (h ++ g) s0 /\
  redirs (run g s) !! norm_path path = Some (redirection_url cn (norm_path path)) /\
  Forall (fun ev => forall id r, ev_op ev = OReply id r -> ev_ans ev = AOk) (trace g s).
Proof.
  intros s g Hn Hu St Sz D H.
  assert (G : guards s = ∅) by (eapply unlocked_guards; eauto).
  assert (U : up_inv s).
  { apply reachable_up_inv. destruct Hn as ((caller & url_ok & a & Hi) & _). exists caller, url_ok, a, s0, h. auto. }
  destruct (upload_run_done s path size cn c1 c2 l c3 U G (proj2 Hu) St Sz D H) as (A & B & C & E & F).
  splits; auto. split; [|rewrite run_app; exact C]. rewrite trace_app. apply Forall_app. split; [apply Hu|].
  apply calm_no_upgrade. exact B.
Qed.
Print Assumptions C105_upload_completes.

(** And then the file is served: a request for it is redirected to the storage canister that took it, certified. *)
Theorem C105_served l0 now s0 path size cn c1 c2 l c3 order :
  let s := run (map fst l0) s0 in
  let g := upload_run path size cn c1 (c2 :: l) c3 (next_pend s) in
  now_at (map fst l0) now s0 -> unlocked (map fst l0) s0 -> orders_ok l0 -> (forall r, order r ≡ₚ r) ->
  status s path = None -> size <= 2147483648 -> ~ reserved (norm_path path) ->
  Forall undisturbed (c1 :: c2 :: l ++ [c3]) ->
  Forall (fun c => holds s (e_caller (uc_env c)) PUpdateUploads) (c1 :: c2 :: l ++ [c3]) ->
  let hs := snd (http_run (l0 ++ map (fun m => (m, order)) g) s0 http_init) in
  exists w, http_request (norm_path path) hs = RRedirect (redirection_url cn (norm_path path)) w /\
    vouched (norm_path path) hs (http_request (norm_path path) hs).
Proof.
  intros s g Hn Hu O Ho St Sz Hr D H hs.
  destruct (C105_upload_completes _ now s0 path size cn c1 c2 l c3 Hn Hu St Sz D H) as (_ & _ & R & _).
  assert (M : map fst (l0 ++ map (fun m => (m, order)) g) = map fst l0 ++ g).
  { rewrite map_app, map_map. cbn. rewrite map_id. reflexivity. }
  assert (HR : http_reachable (run (map fst l0 ++ g) s0) hs).
  { destruct Hn as ((caller & url_ok & a & Hi) & _). exists caller, url_ok, a, s0, (l0 ++ map (fun m => (m, order)) g).
    split; [exact Hi|]. split; [apply Forall_app; split; [exact O|apply Forall_map, Forall_true; intros; apply Ho]|].
    rewrite <- M, <- (http_run_state _ s0 http_init). unfold hs. destruct (http_run _ _ _); reflexivity. }
  destruct (reachable_router _ _ HR) as [R1 R2]. rewrite run_app in R1, R2. fold s g in R, R1, R2.
  assert (E : http_request (norm_path path) hs = serve_asset (norm_path path) hs).
  { unfold http_request, reserved in *. rewrite !elem_of_cons in Hr.
    destruct (String.eqb (norm_path path) "/logs") eqn:E1; [apply String.eqb_eq in E1; tauto|].
    destruct (String.eqb (norm_path path) "/traces") eqn:E2; [apply String.eqb_eq in E2; tauto|].
    destruct (String.eqb (norm_path path) "/metrics") eqn:E3; [apply String.eqb_eq in E3; tauto|reflexivity]. }
  rewrite E. unfold serve_asset. rewrite R1, R. exists (h_tree hs). split; [reflexivity|]. cbn. split.
  - apply R2. intros X. rewrite X, lookup_empty in R. discriminate.
  - rewrite R1. exact R.
Qed.
Print Assumptions C105_served.

(** Two chunks, with a refused mint and a transfer in between. *)
Example C105_example :
  let c x y := mkCall (from_ admin x) [(from_ admin (x + 1), mint3)] (from_ admin y) [(from_ alice (y + 1), OTransfer [xfer bob 1])] in
  let g := upload_run "a.png" 10 [7] (c 10 20) [c 30 40; c 50 60] (c 70 80) (next_pend demo2) in
  unlocked demo2_h demo0 /\ Forall undisturbed [c 10 20; c 30 40; c 50 60; c 70 80] /\
  holds demo2 admin PUpdateUploads /\ status demo2 "a.png" = None /\
  redirs (run g demo2) !! "/a.png"%string = Some (redirection_url [7] "/a.png") /\
  map ev_ans (trace (take 3 g) demo2) = [APending; AErr EConcurrentManagementCall; AOk].
Proof.
  cbv zeta. splits.
  - split; [|vm_compute; reflexivity]. apply calm_no_upgrade. unfold demo2_h. repeat constructor; discriminate.
  - repeat constructor; try discriminate.
  - exists all_permissions. split; [vm_compute; reflexivity|]. vm_compute. set_solver.
  - vm_compute. reflexivity.
  - vm_compute. reflexivity.
  - vm_compute. reflexivity.
Qed.
