(** The command-line tool as a whole: it accepts the documents it created (C135), and each command touches only what it is
    about (C136). *)
From Verif Require Import Base ModelPrincipal ModelState ModelManagement ModelStep ModelCodec ModelCli ModelPrompts ModelWorkflow ModelMain
  PropertiesCli PropertiesPrompts.
Local Open Scope N_scope.

(** ** C135 *)

(** Documents that differ at most in their numbers: reading back what was printed may round a number. *)
Fixpoint numberless (j : json) : json :=
  match j with
  | JNum _ => JNum 0
  | JArr l => JArr (map numberless l)
  | JObj l => JObj (map (fun kv => (fst kv, numberless (snd kv))) l)
  | j => j
  end.
Definition like (j j' : json) : Prop := numberless j = numberless j'.

Lemma jget_numberless k l : jget k (map (fun kv => (fst kv, numberless (snd kv))) l) = numberless <$> jget k l.
Proof. induction l as [|[k' v] l IH]; cbn; [reflexivity|]. case_bool_decide; [reflexivity|exact IH]. Qed.
Lemma str_field_numberless k l : str_field k (map (fun kv => (fst kv, numberless (snd kv))) l) = str_field k l.
Proof. unfold str_field. rewrite jget_numberless. destruct (jget k l) as [[]|]; reflexivity. Qed.
Lemma valid_attribute_numberless j : valid_attribute (numberless j) = valid_attribute j.
Proof.
  destruct j as [| | | | |l]; try reflexivity. cbn [numberless valid_attribute]. rewrite !jget_numberless, str_field_numberless.
  destruct (jget "trait_type" l) as [t|]; [|reflexivity]. cbn.
  destruct (jget "value" l); destruct t; reflexivity.
Qed.
Lemma validate_numberless j : validate_metadata (numberless j) = validate_metadata j.
Proof.
  destruct j as [| | | | |l]; try reflexivity. cbn [numberless validate_metadata].
  rewrite !str_field_numberless, jget_numberless. f_equal.
  destruct (jget "attributes" l) as [[| | | |a|]|]; try reflexivity. cbn.
  induction a as [|y a IH]; [reflexivity|]. cbn [map forallb]. rewrite valid_attribute_numberless, IH. reflexivity.
Qed.
Lemma like_valid j j' : like j j' -> validate_metadata j = validate_metadata j'.
Proof. unfold like. intros H. rewrite <- (validate_numberless j), H. apply validate_numberless. Qed.

(** The tool gets to its command: a canister id, an identity, and the root key of a network other than the IC. *)
Definition starts (x : outside) (i : invocation) : Prop :=
  (exists p, principal_parse (in_canister i) = Some p) /\ o_identity x (in_identity i) = true /\
  (in_network i = "ic"%string \/ o_key x (agent_url (in_network i)) = true).
(** What it asks for meanwhile. *)
Definition start_requests (i : invocation) : list request :=
  if bool_decide (in_network i = "ic"%string) then [] else [QRootKey (agent_url (in_network i))].

Lemma tool_starts x i l d :
  starts x i -> tool x i l d =
    (fst (run_command x (in_command i) l d),
     (start_requests i ++ fst (snd (run_command x (in_command i) l d)), snd (snd (run_command x (in_command i) l d)))).
Proof.
  intros ((p & P) & I & N). unfold tool, initialize_agent, start_requests. rewrite P, I. cbn [negb].
  case_bool_decide as B.
  - destruct (run_command _ _ _ _) as [d' [q r]]. reflexivity.
  - destruct N as [N|N]; [contradiction|]. rewrite N. destruct (run_command _ _ _ _) as [d' [q r]]. reflexivity.
Qed.

Lemma tool_not_starts x i l d :
  ~ starts x i -> exists q, tool x i l d = (d, (q, Failure)) /\ (q = [] \/ q = start_requests i).
Proof.
  intros N. unfold tool, initialize_agent, start_requests, starts in *.
  destruct (principal_parse (in_canister i)) as [p|]; [|exists []; auto].
  destruct (o_identity x (in_identity i)) eqn:I; cbn [negb]; [|exists []; auto].
  case_bool_decide as B.
  - exfalso. apply N. eauto.
  - destruct (o_key x (agent_url (in_network i))) eqn:K; [|eexists; split; [reflexivity|auto]].
    exfalso. apply N. eauto.
Qed.

Lemma starts_dec x i : starts x i \/ ~ starts x i.
Proof.
  unfold starts. destruct (principal_parse (in_canister i)) as [p|] eqn:P;
    [|right; intros [[q Q] _]; congruence].
  destruct (o_identity x (in_identity i)) eqn:I; [|right; intros (_ & Q & _); congruence].
  destruct (decide (in_network i = "ic"%string)); [left; eauto|].
  destruct (o_key x (agent_url (in_network i))) eqn:K; [left; eauto|].
  right. intros (_ & _ & [Q|Q]); congruence.
Qed.

(** After [create-metadata] has ended well, the file it names is there, and [validate-metadata] and [upload-metadata] take it:
    the one ends well, the other announces the document to the canister.  Hypothesis: what serde_json prints it reads back, up
    to the rounding of numbers. *)
Theorem C135_accepted x i l d d' q out a y :
  tool x i l d = (d', (q, Success)) -> in_command i = CmdCreate out a ->
  (forall j, exists j', o_parse y (o_print x j) = Some j' /\ like j j') ->
  exists doc, d' !! out = Some doc /\
    (forall i2 l2, starts y i2 -> in_command i2 = CmdValidate out -> tool y i2 l2 d' = (d', (start_requests i2, Success))) /\
    (forall i2 l2 n, starts y i2 -> in_command i2 = CmdUploadMetadata out n ->
       exists cs r, tool y i2 l2 d' =
         (d', (start_requests i2 ++ map (QUpload (document_path (o_digest y) doc)) (CInit (nlen doc) n :: cs), r))).
Proof.
  intros T C P. destruct (starts_dec x i) as [S|S]; [|destruct (tool_not_starts x i l d S) as (q' & E & _); rewrite E in T; discriminate].
  rewrite (tool_starts _ _ _ _ S), C in T. cbn [run_command] in T. unfold handle_create_metadata in T.
  destruct (create_command (o_float x) a l) as [j rest| |] eqn:K; [|discriminate..].
  destruct (o_write x out); [|discriminate]. cbn in T. injection T as <- _.
  exists (o_print x j). split; [apply lookup_insert|].
  destruct (P j) as (j' & Pj & L).
  assert (V : validate_metadata j' = true).
  { rewrite <- (like_valid _ _ L). unfold create_command in K.
    match type of K with match ?z with _ => _ end = _ => destruct z as [j0 r0| |] end; [|discriminate..].
    destruct (validate_metadata j0) eqn:V; [|discriminate]. injection K as -> _. exact V. }
  split.
  - intros i2 l2 S2 C2. rewrite (tool_starts _ _ _ _ S2), C2. cbn [run_command]. unfold handle_validate_metadata.
    rewrite lookup_insert, Pj, V. cbn [fst snd]. rewrite app_nil_r. reflexivity.
  - intros i2 l2 n S2 C2. rewrite (tool_starts _ _ _ _ S2), C2. cbn [run_command]. unfold handle_upload_metadata, upload_document.
    rewrite lookup_insert, Pj, V.
    assert (U : forall b, exists cs r, upload_file (o_read y) (o_upload y) b n = (CInit (nlen b) n :: cs, r)).
    { intros b. unfold upload_file. destruct (negb _); [eauto|]. destruct (n =? 0); [eauto|]. destruct (_ && _); [eauto|].
      destruct (send_chunks _ _ _ _ _ _) as [cs [|]]; cbn [negb]; eauto. }
    destruct (U (o_print x j)) as (cs & r & ->). eauto.
Qed.
Print Assumptions C135_accepted.

(** ** C136 *)

(** Requests that change the ledger. *)
Definition writes (q : request) : Prop :=
  match q with QUpload _ _ | QMint _ | QGrant _ _ | QRevoke _ _ => True | _ => False end.

(** What a command may ask of the canister. *)
Definition belongs (c : command) (q : request) : Prop :=
  match q with
  | QRootKey _ => False
  | QUpload p _ => (exists f n, c = CmdUploadFile f p n) \/ (exists f n, c = CmdUploadMetadata f n)
  | QMint _ => exists a, c = CmdMint a
  | QGrant _ _ => exists t p, c = CmdPermissions (Some (PcGrant t p))
  | QRevoke _ _ => exists t p, c = CmdPermissions (Some (PcRevoke t p))
  | QList _ => exists t, c = CmdPermissions (Some (PcList t))
  | QHas _ _ => exists t p, c = CmdPermissions (Some (PcHas t p))
  end.

Lemma map_elem {A B} (f : A -> B) l y : y ∈ map f l -> exists z, y = f z.
Proof. intros H. apply elem_of_list_In, in_map_iff in H. destruct H as (z & <- & _). eauto. Qed.

Lemma run_belongs x c l d q : q ∈ fst (snd (run_command x c l d)) -> belongs c q.
Proof.
  destruct c as [f p n|f|out a|f n|a|c|]; cbn [run_command].
  - unfold handle_upload_file. destruct (d !! f) as [b|]; [|intros H; apply elem_of_nil in H; destruct H].
    destruct (upload_file _ _ _ _) as [cs r]. cbn [fst snd]. intros H. apply map_elem in H. destruct H as [z ->]. cbn. eauto.
  - intros H. apply elem_of_nil in H. destruct H.
  - destruct (handle_create_metadata x out a l d) as [d' r]. intros H. apply elem_of_nil in H. destruct H.
  - unfold handle_upload_metadata. destruct (d !! f) as [b|]; [|intros H; apply elem_of_nil in H; destruct H].
    destruct (upload_document _ _ _ _ _ _) as [[p [cs r]]|]; [|intros H; apply elem_of_nil in H; destruct H].
    cbn [fst snd]. intros H. apply map_elem in H. destruct H as [z ->]. cbn. eauto.
  - unfold handle_mint. destruct (mint_command a l) as [r rest| |]; [|intros H; apply elem_of_nil in H; destruct H..].
    cbn. intros H. apply elem_of_list_singleton in H. subst q. cbn. eauto.
  - destruct c as [[t p|t p|t|t p]|]; cbn [handle_permissions snd]; unfold who_what;
      repeat (match goal with |- context [match ?z with _ => _ end] => destruct z end); cbn [fst snd one_call];
      intros H; try (apply elem_of_nil in H; destruct H); apply elem_of_list_singleton in H; subst q; cbn; eauto.
  - intros H. apply elem_of_nil in H. destruct H.
Qed.

(** Apart from the root key asked for at the start, a command sends only calls of its own kind: what lists, checks, validates or
    creates a document changes nothing in the ledger. *)
Theorem C136_requests x i l d q :
  q ∈ fst (snd (tool x i l d)) -> q ∈ start_requests i \/ belongs (in_command i) q.
Proof.
  destruct (starts_dec x i) as [S|S].
  - rewrite (tool_starts _ _ _ _ S). cbn [fst snd]. intros H. apply elem_of_app in H. destruct H as [H|H]; [auto|].
    right. eapply run_belongs. exact H.
  - destruct (tool_not_starts x i l d S) as (r & -> & [->| ->]); cbn; [intros H; apply elem_of_nil in H; destruct H|auto].
Qed.
Print Assumptions C136_requests.

Theorem C136_reading x i l d q :
  q ∈ fst (snd (tool x i l d)) -> writes q ->
  match in_command i with
  | CmdUploadFile _ _ _ | CmdUploadMetadata _ _ | CmdMint _ | CmdPermissions (Some (PcGrant _ _ | PcRevoke _ _)) => True
  | _ => False
  end.
Proof.
  intros H W. apply C136_requests in H. destruct H as [H|H].
  - unfold start_requests in H. case_bool_decide; [apply elem_of_nil in H; destruct H|].
    apply elem_of_list_singleton in H. subst q. destruct W.
  - destruct q; cbn in W; try contradiction; cbn in H;
      repeat match goal with H : _ \/ _ |- _ => destruct H | H : exists _, _ |- _ => destruct H end; rewrite H; exact Logic.I.
Qed.
Print Assumptions C136_reading.

(** Files: [create-metadata] writes the file it was told to, nothing else writes any. *)
Theorem C136_files x i l d f :
  fst (tool x i l d) !! f <> d !! f -> exists a, in_command i = CmdCreate f a.
Proof.
  intros H. destruct (starts_dec x i) as [S|S].
  2:{ destruct (tool_not_starts x i l d S) as (q & E & _). rewrite E in H. destruct (H eq_refl). }
  rewrite (tool_starts _ _ _ _ S) in H. cbn [fst] in H. destruct (in_command i) as [? ? ?|?|out a|? ?|?|?|]; try destruct (H eq_refl).
  cbn [run_command] in H. unfold handle_create_metadata in H.
  destruct (create_command _ _ _); [|destruct (H eq_refl)..]. destruct (o_write x out); [|destruct (H eq_refl)].
  cbn [fst] in H. destruct (decide (out = f)) as [->|N]; [eauto|]. rewrite lookup_insert_ne in H by exact N. destruct (H eq_refl).
Qed.
Print Assumptions C136_files.

(** On the IC the tool never asks for the root key, so answers are checked against the one it brings along; on "local" it asks
    the replica on this machine. *)
Theorem C136_root_key x i l d u :
  QRootKey u ∈ fst (snd (tool x i l d)) -> in_network i = "local"%string \/ in_network i = "ic"%string ->
  in_network i = "local"%string /\ u = "http://127.0.0.1:4943"%string.
Proof.
  intros H N. apply C136_requests in H. destruct H as [H|[]].
  unfold start_requests in H. case_bool_decide as B; [apply elem_of_nil in H; destruct H|].
  apply elem_of_list_singleton in H. injection H as ->. destruct N as [->|N]; [|contradiction]. split; reflexivity.
Qed.
Print Assumptions C136_root_key.

(** The IC is reached encrypted, "local" does not leave this machine. *)
Theorem C136_addresses :
  agent_url "ic" = ("https://" +:+ "ic0.app")%string /\ agent_url "local" = ("http://" +:+ "127.0.0.1:4943")%string.
Proof. split; reflexivity. Qed.
Print Assumptions C136_addresses.

(** Two worlds that differ at most in what the network does. *)
Definition same_but_network (x y : outside) : Prop :=
  exists k u c, y = mkOutside (o_identity x) k u c (o_write x) (o_read x) (o_float x) (o_print x) (o_parse x) (o_digest x).
(** Commands about the user's own files. *)
Definition local_command (c : command) : Prop :=
  match c with CmdValidate _ | CmdCreate _ _ => True | _ => False end.

(** Full claim: checking and creating documents does not need the network.  It holds on "ic". *)
Theorem C136_offline_partial x y i l d :
  same_but_network x y -> local_command (in_command i) -> in_network i = "ic"%string -> tool y i l d = tool x i l d.
Proof.
  intros (k & u & c & ->) L N. unfold tool, initialize_agent. rewrite N. cbn [o_identity].
  destruct (principal_parse _); [|reflexivity]. destruct (negb _); [reflexivity|].
  rewrite bool_decide_eq_true_2 by reflexivity. destruct (in_command i); try contradiction; reflexivity.
Qed.
Print Assumptions C136_offline_partial.

(** It fails on "local", the default: without a running replica neither command does anything. *)
Theorem C136_offline_refuted :
  ~ (forall x y i l d, same_but_network x y -> local_command (in_command i) -> tool y i l d = tool x i l d).
Proof.
  intros H.
  set (x := mkOutside (fun _ => true) (fun _ => true) (fun _ => ModelCli.ROk) (fun _ => true) (fun _ => true) (fun _ n m => Some (N.min n m))
              (fun _ => None) (fun _ => []) (fun _ => Some (JObj [])) id).
  set (y := mkOutside (fun _ => true) (fun _ => false) (fun _ => ModelCli.ROk) (fun _ => true) (fun _ => true) (fun _ n m => Some (N.min n m))
              (fun _ => None) (fun _ => []) (fun _ => Some (JObj [])) id).
  specialize (H x y (mkInvocation "local" "id.pem" "aaaaa-aa" (CmdValidate "m.json")) [] (<["m.json"%string := []]> ∅)).
  assert (E : snd (snd (tool y (mkInvocation "local" "id.pem" "aaaaa-aa" (CmdValidate "m.json")) [] (<["m.json"%string := []]> ∅))) = Failure)
    by (vm_compute; reflexivity).
  rewrite H in E; [vm_compute in E; discriminate| |exact Logic.I].
  exists (fun _ => false), (fun _ => ModelCli.ROk), (fun _ => true). reflexivity.
Qed.
Print Assumptions C136_offline_refuted.

(** ** C143: the exit status *)

(** The request was granted; for the calls of an upload before the last one: it was delivered. *)
Definition answered (x : outside) (q : request) : Prop :=
  match q with
  | QRootKey u => o_key x u = true
  | QUpload _ CFinalize => o_upload x CFinalize = ModelCli.ROk
  | QUpload _ c => o_upload x c <> ModelCli.RFail
  | q => o_call x q = true
  end.
(** The request was granted. *)
Definition granted (x : outside) (q : request) : Prop :=
  match q with QRootKey u => o_key x u = true | QUpload _ c => o_upload x c = ModelCli.ROk | q => o_call x q = true end.
(** The request that completes a command. *)
Definition completing (q : request) : Prop :=
  match q with QRootKey _ => False | QUpload _ c => c = CFinalize | _ => True end.

Lemma uploads_answered x p b n cs :
  upload_file (o_read x) (o_upload x) b n = (cs, UOk) ->
  Forall (answered x) (map (QUpload p) cs) /\ QUpload p CFinalize ∈ map (QUpload p) cs.
Proof.
  intros H. destruct (C75_stops_partial _ _ _ _ _ _ H) as [_ A]. destruct (A eq_refl) as (L & F & D). split.
  - apply Forall_forall. intros q Q. apply elem_of_list_In, in_map_iff in Q. destruct Q as (c & <- & C). apply elem_of_list_In in C.
    destruct c; cbn; auto.
  - apply elem_of_list_In, in_map, elem_of_list_In. apply last_Some in L. destruct L as [l ->]. apply elem_of_app. right. left.
Qed.
Lemma uploads_finished x p b n cs r :
  upload_file (o_read x) (o_upload x) b n = (cs, r) -> QUpload p CFinalize ∈ map (QUpload p) cs -> o_upload x CFinalize = ModelCli.ROk -> r = UOk.
Proof.
  intros H Q F. apply elem_of_list_In, in_map_iff in Q. destruct Q as (c & [= ->] & C). apply elem_of_list_In in C.
  unfold upload_file in H. destruct (negb _); [injection H as <- _; apply elem_of_list_singleton in C; discriminate|].
  destruct (n =? 0); [injection H as <- _; apply elem_of_list_singleton in C; discriminate|].
  destruct (_ && _); [injection H as <- _; apply elem_of_list_singleton in C; discriminate|].
  destruct (send_chunks _ _ _ _ _ _) as [cs1 o] eqn:S. destruct o; cbn [negb] in H.
  - injection H as _ <-. rewrite F. reflexivity.
  - injection H as <- _. exfalso. apply elem_of_cons in C. destruct C as [C|C]; [discriminate|].
    revert C S. generalize (N.to_nat ((nlen b + n + two64 - 1) mod two64 / n)) as k. intros k. generalize false. revert cs1. generalize 0 as i.
    revert b. induction k as [|k IH]; intros b i cs1 o C S; cbn [send_chunks] in S; [injection S as <- _; apply elem_of_nil in C; exact C|].
    destruct (o_read x i n (nlen b)) as [m|]; [|injection S as <- _; apply elem_of_nil in C; exact C].
    destruct (m =? 0); [injection S as <- _; apply elem_of_nil in C; exact C|]. destruct (delivered _).
    + destruct (send_chunks _ _ _ k _ _) as [cs2 o2] eqn:S2. injection S as <- _. apply elem_of_cons in C. destruct C as [C|C]; [discriminate|].
      eapply IH; [exact C|exact S2].
    + injection S as <- _. apply elem_of_list_singleton in C. discriminate.
Qed.

Lemma run_success x c l d :
  snd (snd (run_command x c l d)) = Success -> Forall (answered x) (fst (snd (run_command x c l d))).
Proof.
  destruct c as [f p n|f|out a|f n|a|c|]; cbn [run_command].
  - unfold handle_upload_file. destruct (d !! f) as [b|]; [|discriminate].
    destruct (upload_file _ _ _ _) as [cs r] eqn:U. cbn [fst snd]. intros H. destruct r; try discriminate. eapply uploads_answered, U.
  - constructor.
  - destruct (handle_create_metadata x out a l d) as [d' r]. constructor.
  - unfold handle_upload_metadata, upload_document. destruct (d !! f) as [b|]; [|discriminate].
    destruct (o_parse x b) as [j|]; [|discriminate]. destruct (validate_metadata j); [|discriminate].
    destruct (upload_file _ _ _ _) as [cs r] eqn:U. cbn [fst snd]. intros H. destruct r; try discriminate. eapply uploads_answered, U.
  - unfold handle_mint. destruct (mint_command a l) as [r rest| |]; [|discriminate..].
    cbn. destruct (o_call x (QMint r)) eqn:O; [|discriminate]. intros _. apply Forall_cons. split; [exact O|constructor].
  - destruct c as [[t p|t p|t|t p]|]; cbn [handle_permissions snd]; unfold who_what;
      repeat (match goal with |- context [match ?z with _ => _ end] => destruct z end); try discriminate; cbn [fst snd one_call];
      try (match goal with |- context [if ?b then _ else _] => destruct b eqn:O end; [|discriminate]; intros _; apply Forall_cons; split; [exact O|]);
      constructor.
  - constructor.
Qed.

(** Full claim: the tool ends well only if everything it asked for was granted.  Proved but for the calls of an upload before
    the last one, of which only the delivery is noticed. *)
Theorem C143_success_partial x i l d q :
  snd (snd (tool x i l d)) = Success -> q ∈ fst (snd (tool x i l d)) -> answered x q.
Proof.
  destruct (starts_dec x i) as [S|S].
  2: { destruct (tool_not_starts x i l d S) as (r & -> & _). discriminate. }
  rewrite (tool_starts _ _ _ _ S). cbn [fst snd]. intros R H. apply elem_of_app in H. destruct H as [H|H].
  - unfold start_requests in H. destruct S as (_ & _ & N). case_bool_decide as B; [apply elem_of_nil in H; destruct H|].
    apply elem_of_list_singleton in H. subst q. cbn. destruct N as [N|N]; [contradiction|exact N].
  - pose proof (run_success x (in_command i) l d R) as F. rewrite Forall_forall in F. apply F, H.
Qed.
Print Assumptions C143_success_partial.

(** If the last call of a command was made and granted, the tool ends well. *)
Theorem C143_completed x i l d q :
  q ∈ fst (snd (tool x i l d)) -> completing q -> answered x q -> snd (snd (tool x i l d)) = Success.
Proof.
  destruct (starts_dec x i) as [S|S].
  2: { destruct (tool_not_starts x i l d S) as (r & -> & [->| ->]); cbn [fst snd]; intros H C.
       - apply elem_of_nil in H. destruct H.
       - unfold start_requests in H. case_bool_decide; [apply elem_of_nil in H; destruct H|].
         apply elem_of_list_singleton in H. subst q. destruct C. }
  rewrite (tool_starts _ _ _ _ S). cbn [fst snd]. intros H C A. apply elem_of_app in H. destruct H as [H|H].
  { unfold start_requests in H. case_bool_decide; [apply elem_of_nil in H; destruct H|].
    apply elem_of_list_singleton in H. subst q. destruct C. }
  clear S. destruct (in_command i) as [f p n|f|out a|f n|a|c|]; cbn [run_command] in *.
  - unfold handle_upload_file in *. destruct (d !! f) as [b|]; [|apply elem_of_nil in H; destruct H].
    destruct (upload_file _ _ _ _) as [cs r] eqn:U. cbn [fst snd] in *. pose proof (map_elem _ _ _ H) as [z ->]. cbn in C. subst z.
    rewrite (uploads_finished _ _ _ _ _ _ U H A). reflexivity.
  - apply elem_of_nil in H. destruct H.
  - destruct (handle_create_metadata x out a l d) as [d' r]. apply elem_of_nil in H. destruct H.
  - unfold handle_upload_metadata, upload_document in *. destruct (d !! f) as [b|]; [|apply elem_of_nil in H; destruct H].
    destruct (o_parse x b) as [j|]; [|apply elem_of_nil in H; destruct H]. destruct (validate_metadata j); [|apply elem_of_nil in H; destruct H].
    destruct (upload_file _ _ _ _) as [cs r] eqn:U. cbn [fst snd] in *. pose proof (map_elem _ _ _ H) as [z ->]. cbn in C. subst z.
    rewrite (uploads_finished _ _ _ _ _ _ U H A). reflexivity.
  - unfold handle_mint in *. destruct (mint_command a l) as [r rest| |]; [|apply elem_of_nil in H; destruct H..].
    cbn in H |- *. apply elem_of_list_singleton in H. subst q. cbn in A. rewrite A. reflexivity.
  - destruct c as [[t p|t p|t|t p]|]; cbn [handle_permissions snd] in *; unfold who_what in *;
      repeat (match goal with |- context [match ?z with _ => _ end] => destruct z end); cbn [fst snd one_call] in *;
      try reflexivity; try (apply elem_of_nil in H; destruct H); apply elem_of_list_singleton in H; subst q; cbn in A;
      try (rewrite A; reflexivity); try reflexivity; congruence.
  - reflexivity.
Qed.
Print Assumptions C143_completed.

(** Refuted: every chunk of a file is turned away, and the tool ends well. *)
Theorem C143_success_refuted :
  ~ (forall x i l d q, snd (snd (tool x i l d)) = Success -> q ∈ fst (snd (tool x i l d)) -> granted x q).
Proof.
  intros H.
  set (x := mkOutside (fun _ => true) (fun _ => true) (fun c => match c with CStore _ _ => ModelCli.RErr | _ => ModelCli.ROk end)
              (fun _ => true) (fun _ => true) (fun _ n m => Some (N.min n m)) (fun _ => None) (fun _ => []) (fun _ => None) id).
  specialize (H x (mkInvocation "ic" "id.pem" "aaaaa-aa" (CmdUploadFile "f" "/f" 4)) [] (<["f"%string := [65]]> ∅) (QUpload "/f" (CStore 0 [65]))).
  assert (E : ModelCli.RErr = ModelCli.ROk); [|discriminate E]. apply H; vm_compute; [reflexivity|]. right. left.
Qed.
Print Assumptions C143_success_refuted.

Definition cloudy (q0 : bool) : outside :=
  mkOutside (fun _ => true) (fun _ => true) (fun _ => ModelCli.ROk) (fun _ => q0) (fun _ => true) (fun _ n m => Some (N.min n m))
    (fun _ => None) (fun _ => []) (fun _ => None) id.
Example C143_example :
  let grant := mkInvocation "local" "id.pem" "aaaaa-aa" (CmdPermissions (Some (PcGrant "2vxsx-fae" "minting"))) in
  snd (tool (cloudy true) grant [] ∅) = ([QRootKey "http://127.0.0.1:4943"; QGrant [4] PMinting], Success) /\
  snd (tool (cloudy false) grant [] ∅) = ([QRootKey "http://127.0.0.1:4943"; QGrant [4] PMinting], Failure).
Proof. split; vm_compute; reflexivity. Qed.

(** A world in which serde_json prints and reads the one document used. *)
Definition rose : json := JObj [("name"%string, JStr "Rose"); ("description"%string, JStr "red")].
Definition sunny : outside :=
  mkOutside (fun f => bool_decide (f = "id.pem"%string)) (fun u => bool_decide (u = "http://127.0.0.1:4943"%string)) (fun _ => ModelCli.ROk)
    (fun _ => true) (fun _ => true) (fun _ n m => Some (N.min n m)) (fun _ => None) (fun _ => [123; 125]) (fun _ => Some rose) (fun b => b).
Definition say (n : string) (c : command) : invocation := mkInvocation n "id.pem" "aaaaa-aa" c.

Example C135_example :
  let i := say "local" (CmdCreate "m.json" (mkCreate false (Some "Rose"%string) (Some "red"%string) None None [])) in
  let d := fst (tool sunny i [] ∅) in
  create_command (o_float sunny) (mkCreate false (Some "Rose"%string) (Some "red"%string) None None []) [] = Ended rose [] /\
  starts sunny i /\ snd (tool sunny i [] ∅) = ([QRootKey "http://127.0.0.1:4943"], Success) /\ d !! "m.json"%string = Some [123; 125] /\
  snd (tool sunny (say "ic" (CmdValidate "m.json")) [] d) = ([], Success) /\
  snd (tool sunny (say "ic" (CmdUploadMetadata "m.json" 1)) [] d) =
    ([QUpload "/7b7d.json" (CInit 2 1); QUpload "/7b7d.json" (CStore 0 [123]); QUpload "/7b7d.json" (CStore 1 [125]); QUpload "/7b7d.json" CFinalize],
     Success).
Proof.
  cbv zeta. splits; try (vm_compute; reflexivity).
  split; [exists []; vm_compute; reflexivity|]. split; [vm_compute; reflexivity|right; vm_compute; reflexivity].
Qed.

Example C136_example :
  snd (tool sunny (say "ic" (CmdPermissions (Some (PcGrant "aaaaa-aa" "minting")))) [] ∅) = ([QGrant [] PMinting], Success) /\
  snd (tool sunny (say "local" (CmdPermissions (Some (PcHas "aaaaa-aa" "minting")))) [] ∅) =
    ([QRootKey "http://127.0.0.1:4943"; QHas [] PMinting], Success) /\
  snd (tool sunny (mkInvocation "ic" "other.pem" "aaaaa-aa" CmdOther) [] ∅) = ([], Failure) /\
  same_but_network sunny (mkOutside (o_identity sunny) (fun _ => false) (fun _ => ModelCli.RFail) (fun _ => false) (o_write sunny) (o_read sunny)
    (o_float sunny) (o_print sunny) (o_parse sunny) (o_digest sunny)).
Proof. splits; try (vm_compute; reflexivity). repeat eexists. Qed.
