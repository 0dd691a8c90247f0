(** Further concrete cases for claims with several theorems: calls on reachable ledgers that meet the hypotheses of each. *)
From Verif Require Import Base ModelPrincipal ModelState ModelIcrc7 ModelIcrc37 ModelManagement ModelLifecycle
  ModelQueries ModelStep ModelCodec ModelInstall Spec ProofsCodec Scenario PropertiesManage PropertiesInstall PropertiesRecord.

(** C91 and C81: one batch of each kind with accepted and refused items, and the numbers of the blocks that are new. *)
Example C91_more_cases :
  let new e o := drop 5 (map (fun x => (fst x, tx_btype (snd x))) (log (fst (step e o demo2)))) in
  let e := from_ alice 3000000000 in
  let o1 := OApproveCollection [info bob 3000000000 None; info anonymous 3000000000 None; info carol 3000000000 None] in
  let o2 := ORevokeTokens [mkRevokeArg None None 1 None None; mkRevokeArg None None 3 None None; mkRevokeArg (Some (acct bob)) None 1 None None] in
  let o3 := ORevokeCollection [mkRevokeCollArg (Some (acct carol)) None None None; mkRevokeCollArg None None None None] in
  let o4 := OTransferFrom [tfrom alice carol 1; tfrom alice carol 3; tfrom alice carol 2] in
  let o5 := OMint [mkMint (acct bob) None []; mkMint (acct carol) (Some [1]) []] in
  let o6 := OApproveTokens [appr 1 carol 3000000000 None; appr 3 carol 3000000000 None; appr 2 bob 3000000000 None] in
  reachable demo2 /\ map fst (log demo2) = [0; 1; 2; 3; 4] /\
  (snd (step e o1 demo2), new e o1) = (ABatch [Ok 5; Err EInvalidSpender; Ok 6], [(5, "37approve_coll"); (6, "37approve_coll")])%string /\
  (snd (step e o2 demo2), new e o2) = (ABatch [Ok 5; Err EUnauthorized; Ok 6], [(5, "37revoke"); (6, "37revoke")])%string /\
  (snd (step e o3 demo2), new e o3) = (ABatch [Ok 5; Ok 6], [(5, "37revoke_coll"); (6, "37revoke_coll")])%string /\
  (snd (step (from_ bob 3000000000) o4 demo2), new (from_ bob 3000000000) o4) = (ABatch [Ok 5; Err EUnauthorized; Err EUnauthorized], [(5, "37xfer")])%string /\
  (snd (step (from_ admin 3000000000) o5 demo2), new (from_ admin 3000000000) o5) = (ANat 4, [(5, "7mint"); (6, "7mint")])%string /\
  (snd (step e o6 demo2), new e o6) = (ABatch [Ok 5; Err EUnauthorized; Ok 6], [(5, "37approve"); (6, "37approve")])%string /\
  (snd (step (from_ admin 3000000000) (OGrant bob PMinting) demo2), new (from_ admin 3000000000) (OGrant bob PMinting)) = (AOk, []).
Proof.
  cbv zeta. split; [apply demo_reachable|]. repeat (split; [vm_compute; reflexivity|]). vm_compute; reflexivity.
Qed.

(** C92: refusals of the calls that the other cases leave out. *)
Example C92_more_cases :
  let e := from_ alice 3000000000 in let ad := from_ admin 3000000000 in
  let busy := fst (step ad (OInitUpload "/a" 5) demo2) in
  reachable demo2 /\
  snd (step e (OTransfer [xfer carol 3]) demo2) = ABatch [Err EInvalidRecipient] /\
  snd (step e (OTransfer [mkTransferArg (acct carol) 1 (Some (repeat 0 11%nat)) None None]) demo2) = ABatch [Err (EGeneric 0 "Exceeds Max Memo Size")] /\
  snd (step e (ORevokeTokens [mkRevokeArg None None 9 None None]) demo2) = ABatch [Err ENonExistingTokenId] /\
  snd (step e (ORevokeTokens [mkRevokeArg None None 2 None None]) demo2) = ABatch [Err EApprovalDoesNotExist] /\
  snd (step ad (OMint (repeat (mkMint (acct bob) None []) 98%nat)) demo2) = AErr EExceedMaxAllowedSupplyCap /\
  snd (step ad (OMint [mkMint (acct bob) (Some (repeat 0 11%nat)) []]) demo2) = AErr EInvalidMemo /\
  snd (step ad (OMint (repeat (mkMint (acct bob) None []) 101%nat)) demo2) = AErr EExceedMaxAllowedSupplyCap /\
  map (fun o => snd (step ad o busy)) [OGrant bob PMinting; ORevokePerm bob PMinting; mint3; OBurn 1] = repeat (AErr EConcurrentManagementCall) 4%nat.
Proof.
  cbv zeta. split; [apply demo_reachable|]. repeat (split; [vm_compute; reflexivity|]). vm_compute; reflexivity.
Qed.

(** C20: bob loses the approval of token 1 by using it; carol loses hers, which covers the collection of alice, as well. *)
Example C20_removes_token_case :
  let r := step (from_ bob 3000000000) (OTransferFrom [tfrom alice carol 1]) demo2 in
  snd r = ABatch [Ok 5] /\ is_Some (token_approval demo2 1 (acct bob)) /\ token_approval (fst r) 1 (acct bob) = None /\
  is_Some (collection_approval demo2 (acct alice) (acct carol)) /\ collection_approval (fst r) (acct alice) (acct carol) = None.
Proof. cbv zeta. split; [vm_compute; reflexivity|]. split; [vm_compute; eexists; reflexivity|]. split; [vm_compute; reflexivity|].
  split; [vm_compute; eexists; reflexivity|vm_compute; reflexivity]. Qed.

(** C96: an upgraded canister, and what its storage canisters are made from. *)
Example C96_example :
  let k := can_run [(from_ admin 2, CUpgrade 2 (AUpgrade build2))] demo_can in
  can_init admin [77] (fun _ => true) 1 (AInit demo_args build1) = Some demo_can /\
  k_build k = build2 /\ sg_wasm (k_storage k) = 1 /\ sg_build (k_storage k) = build1 /\ build1 <> build2.
Proof. cbv zeta. split; [apply demo_can_init|]. repeat split; discriminate. Qed.

(** C52: records of the index, of its cache and of the metadata, followed by other bytes. *)
Example C52_more_cases :
  let v := VMap [("a"%string, VNat 300)] in
  enc_ids [5; 300; 0] = [131; 5; 25; 1; 44; 0] /\ dec_ids ([131; 5; 25; 1; 44; 0] ++ [7; 7]) = Some ([5; 300; 0], [7; 7]) /\
  (exists b, enc_entry (258, v) = Some b /\ take 8 b = [2; 1; 0; 0; 0; 0; 0; 0] /\ entry_from_bytes (b ++ [9]) = Some (258, v)) /\
  (exists b, enc_metadata {["k"%string := VNat 7]} = Some b /\ b = [161; 97; 107; 130; 2; 7] /\
     dec_metadata 20 (b ++ [1]) = Some ({["k"%string := VNat 7]}, [1])) /\
  (exists b, enc_key (RToken 300) = Some b /\ dec_key (b ++ [4]) = Some (RToken 300, [4])).
Proof.
  cbv zeta. split; [vm_compute; reflexivity|]. split; [vm_compute; reflexivity|].
  split; [eexists; split; [vm_compute; reflexivity|split; vm_compute; reflexivity]|].
  split; [eexists; split; [vm_compute; reflexivity|split; vm_compute; reflexivity]|].
  eexists; split; vm_compute; reflexivity.
Qed.
