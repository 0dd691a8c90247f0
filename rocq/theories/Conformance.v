(** The repository's own integration tests, replayed on the model.

    The tests of /repo/integrations_tests drive the compiled canisters in a simulator; what they assert is what the code has
    been observed to do.  Each [Example] below is one of those tests with the calls, the waiting times and the assertions
    translated; it is checked by evaluation.  They are evidence that the model describes the code; no theorem depends on
    this file.  Left out: what is done by crates outside the repository (the storage canister's own behaviour, cycles, the
    archives of the log), downloads over HTTP, and assertions on texts only. *)
From Verif Require Import Base ModelPrincipal ModelState ModelIcrc7 ModelIcrc37 ModelManagement ModelLifecycle ModelQueries ModelStep
  ModelHttp ModelConsent ModelIndex.
Local Open Scope N_scope.

(** ** Vocabulary *)
Definition controller : principal := [20].
Definition owner1 : principal := [21].
Definition owner2 : principal := [22].
Definition owner3 : principal := [23].
Definition owner4 : principal := [24].
Definition ac (p : principal) : account := mkAcc p None.

(** One line of a test: a call at the current time with a check of its answer; a look at the state; a pause. *)
Inductive line :=
| Call (who : principal) (o : N -> op) (check : answer -> bool)
| See (look : N -> state -> bool)
| Pause (ns : N).

(** A test passes if all checks do; every call takes a moment.  The log numbers its blocks from 0. *)
Fixpoint conforms (now : N) (l : list line) (s : state) : bool :=
  match l with
  | [] => true
  | Call who o check :: r =>
      let '(s', a) := step (mkEnv who now (fun k _ => LOk k)) (o now) s in check a && conforms (now + 1) r s'
  | See look :: r => look now s && conforms now r s
  | Pause ns :: r => conforms (now + ns) r s
  end.

Definition start_time : N := 1620328630000000000.
Definition minute : N := 60000000000.
Definition all_six : list permission :=
  [PMinting; PManageAuthorities; PUpdateMetadata; PUpdateCollectionMetadata; PReadUploads; PUpdateUploads].
(** integrations_tests/src/core_suite/setup/mod.rs: [test_setup], [test_setup_atomic_batch_transfers]. *)
Definition setup_args (cap : option N) (atomic : option bool) : init_args :=
  mkInit true {[controller := all_six]} None "MC" "MyCollection" None cap None None None None None atomic None None None []
    (Some 10) (Some 10).
Definition test_on (cap : option N) (atomic : option bool) (l : list line) : bool :=
  match init controller (fun _ => true) (setup_args cap atomic) with Some s => conforms start_time l s | None => false end.
Definition test : list line -> bool := test_on (Some 10) None.

(** *** Answers *)
Definition is_ok (r : res N) : bool := match r with Ok _ => true | Err _ => false end.
Definition all_ok (a : answer) : bool := match a with ABatch l => forallb is_ok l | AOk | ANat _ => true | _ => false end.
Definition pattern (l : list bool) (a : answer) : bool :=
  match a with ABatch r => bool_decide (map is_ok r = l) | _ => false end.
(** The test only says that some item or the call failed. *)
Definition some_err (a : answer) : bool :=
  match a with ABatch l => negb (forallb is_ok l) | AErr _ | AReject _ | ATrap => true | _ => false end.
Definition token (n : N) (a : answer) : bool := match a with ANat m => m =? n | _ => false end.
Definition invalid_recipient (a : answer) : bool := match a with ABatch [Err EInvalidRecipient] => true | _ => false end.
Definition too_old (a : answer) : bool := match a with ABatch [Err ETooOld] => true | _ => false end.
Definition in_future (a : answer) : bool := match a with ABatch [Err (ECreatedInFuture _)] => true | _ => false end.
Definition refused (a : answer) : bool := match a with AReject _ => true | _ => false end.
Definition waiting (a : answer) : bool := match a with APending => true | _ => false end.
Definition call_err (a : answer) : bool := match a with AErr _ => true | _ => false end.
Definition rate_limited (a : answer) : bool :=
  match a with
  | ABatch [Err (EGeneric _ m)] => String.prefix "Rate limit exceeded" m
  | AErr (EGeneric _ m) => String.prefix "Rate limit exceeded" m
  | AReject m => String.prefix "Rate limit exceeded" m
  | _ => false end.

(** *** Calls.  integrations_tests/src/utils.rs and client/core_nft.rs. *)
Definition memo : bytes := [109; 101; 109; 111].
Definition text_memo (n : N) : bytes := memo ++ [48 + n].
Definition default_meta : list (string * value) :=
  [("name", VText "test"); ("description", VText "test"); ("test", VText "test")]%string.
Definition icrc97 (url : string) : list (string * value) := [("icrc97:metadata"%string, VArray [VText url])].
Definition mint_as (who : principal) (to : account) (meta : list (string * value)) (check : answer -> bool) : list line :=
  [Call who (fun _ => OMint [mkMint to (Some memo) meta]) check; Pause (30 * minute)].
Definition mint_nft (to : principal) (meta : list (string * value)) (n : N) : list line :=
  mint_as controller (ac to) meta (token n).
Definition mint (to : principal) (n : N) : list line := mint_nft to default_meta n.
Definition update_meta (tid : N) (kvs : list (string * value)) : line := Call controller (fun _ => OUpdateMeta tid kvs) all_ok.
Definition transfer_at (from to : principal) (tid : N) (at_ : N -> option N) (check : answer -> bool) : line :=
  Call from (fun now => OTransfer [mkTransferArg (ac to) tid None None (at_ now)]) check.
Definition current (now : N) : option N := Some now.
Definition transfer (from to : principal) (tid : N) (check : answer -> bool) : line := transfer_at from to tid current check.
Definition info_at (sp : principal) (now : N) : approval_info := mkInfo (ac sp) None None None now.
Definition approve (who sp : principal) (tid : N) (check : answer -> bool) : line :=
  Call who (fun now => OApproveTokens [mkApproveArg tid (info_at sp now)]) check.
Definition approve_coll (who sp : principal) (check : answer -> bool) : line :=
  Call who (fun now => OApproveCollection [info_at sp now]) check.
Definition revoke (who sp : principal) (tid : N) (check : answer -> bool) : line :=
  Call who (fun now => ORevokeTokens [mkRevokeArg (Some (ac sp)) None tid None (Some now)]) check.
Definition revoke_coll (who sp : principal) (check : answer -> bool) : line :=
  Call who (fun now => ORevokeCollection [mkRevokeCollArg (Some (ac sp)) None None (Some now)]) check.
Definition transfer_from (who from to : principal) (tid : N) (check : answer -> bool) : line :=
  Call who (fun now => OTransferFrom [mkTransferFromArg None (ac from) (ac to) tid None (Some now)]) check.

(** *** Observations *)
Definition supply (n : N) : line := See (fun _ s => total_supply s =? n).
Definition owned (tid : N) (a : account) : line :=
  See (fun _ s => match icrc7_owner_of s [tid] with Some [Some b] => acc_eqb a b | _ => false end).
Definition owned_by (tid : N) (p : principal) : line := owned tid (ac p).
Definition balances (l : list (principal * N)) : line :=
  See (fun _ s => bool_decide (icrc7_balance_of s (map (fun x => ac (fst x)) l) = Some (map snd l))).
Definition tokens_are (l : list N) : line := See (fun _ s => bool_decide (icrc7_tokens s None None = Some l)).
Definition tokens_of_are (p : principal) (l : list N) : line :=
  See (fun _ s => bool_decide (icrc7_tokens_of s (ac p) None None = Some l)).
Definition value_text (v : value) (t : string) : bool := match v with VText x => String.eqb x t | _ => false end.
Definition meta_text (tid : N) (k t : string) : line :=
  See (fun _ s => match icrc7_token_metadata s [tid] with
                  | Some [Some m] => existsb (fun kv => String.eqb (fst kv) k && value_text (snd kv) t) m
                  | _ => false end).
Definition meta_has (tid : N) (k : string) (p : value -> bool) : line :=
  See (fun _ s => match icrc7_token_metadata s [tid] with
                  | Some [Some m] => existsb (fun kv => String.eqb (fst kv) k && p (snd kv)) m
                  | _ => false end).
Definition first_meta (tid : N) (k : string) (p : value -> bool) : line :=
  See (fun _ s => match icrc7_token_metadata s [tid] with
                  | Some [Some (kv :: _)] => String.eqb (fst kv) k && p (snd kv)
                  | _ => false end).
Definition meta_size (tid : N) (n : nat) : line :=
  See (fun _ s => match icrc7_token_metadata s [tid] with Some [Some m] => bool_decide (length m = n) | _ => false end).
Definition url_is (url : string) (v : value) : bool := match v with VArray [x] => value_text x url | _ => false end.
Definition approved (sp : principal) (tid : N) (b : bool) : line :=
  See (fun now s => bool_decide (icrc37_is_approved s now [mkIsApproved (ac sp) None tid] = [b])).
Definition spenders (l : list approval_info) : list principal := map (fun i => acc_owner (ai_spender i)) l.
Definition token_spenders (tid : N) (l : list principal) : line :=
  See (fun _ s => bool_decide (spenders (icrc37_get_token_approvals id s tid None None) = l)).
Definition coll_spenders (p : principal) (l : list principal) : line :=
  See (fun _ s => bool_decide (spenders (icrc37_get_collection_approvals id s (ac p) None None) = l)).
Definition setting (f : state -> bool) : line := See (fun _ s => f s).
Definition count_blocks (ty : string) (n : N) : line :=
  See (fun _ s => nlen (filter (fun t => tx_btype t = ty) (map snd (log s))) =? n).

(** * core_suite/tests/test_icrc7.rs *)

(** [test_icrc7_total_supply], integrations_tests/src/core_suite/tests/test_icrc7.rs:62-118. *)
Example icrc7_total_supply :
  test ([supply 0] ++ mint owner1 1 ++ [supply 1] ++ mint owner1 2 ++ [supply 2]) = true.
Proof. vm_compute. reflexivity. Qed.

(** [test_icrc7_token_metadata_simple], test_icrc7.rs:121-280: after the update the first entry is the new link. *)
Example icrc7_token_metadata_simple :
  test (mint_nft owner1 (icrc97 "https://a.example/1.json") 1 ++
        [first_meta 1 "icrc97:metadata" (url_is "https://a.example/1.json");
         update_meta 1 (icrc97 "https://a.example/2.json");
         first_meta 1 "icrc97:metadata" (url_is "https://a.example/2.json"); meta_size 1 1]) = true.
Proof. vm_compute. reflexivity. Qed.

(** [test_icrc7_token_metadata_multiple_insert], test_icrc7.rs:283-501. *)
Example icrc7_token_metadata_multiple :
  test (mint_nft owner1 (icrc97 "https://a.example/1.json") 1 ++ mint_nft owner1 (icrc97 "https://a.example/2.json") 2 ++
        [first_meta 1 "icrc97:metadata" (url_is "https://a.example/1.json");
         first_meta 2 "icrc97:metadata" (url_is "https://a.example/2.json");
         update_meta 1 (icrc97 "https://a.example/3.json"); update_meta 2 (icrc97 "https://a.example/4.json");
         first_meta 1 "icrc97:metadata" (url_is "https://a.example/3.json");
         first_meta 2 "icrc97:metadata" (url_is "https://a.example/4.json")]) = true.
Proof. vm_compute. reflexivity. Qed.

(** [test_icrc7_token_metadata_multiple_insert_dup_name], test_icrc7.rs:504-711: a second update of the same entry replaces it. *)
Example icrc7_token_metadata_dup_name :
  test (mint_nft owner1 (icrc97 "https://a.example/1.json") 1 ++
        [update_meta 1 (icrc97 "https://a.example/2.json"); update_meta 1 (icrc97 "https://a.example/3.json");
         first_meta 1 "icrc97:metadata" (url_is "https://a.example/3.json"); meta_size 1 1]) = true.
Proof. vm_compute. reflexivity. Qed.

(** [test_icrc7_supply_cap], test_icrc7.rs:714-763: ten tokens, not eleven. *)
Example icrc7_supply_cap_ :
  test (flat_map (mint owner1) [1; 2; 3; 4; 5; 6; 7; 8; 9; 10] ++ mint_as controller (ac owner1) default_meta call_err ++
        [supply 10; setting (fun s => bool_decide (icrc7_supply_cap s = Some 10))]) = true.
Proof. vm_compute. reflexivity. Qed.

(** [test_icrc7_transfer_with_metadata_updates], test_icrc7.rs:766-985. *)
Example icrc7_transfer_with_metadata_updates :
  test (mint_nft owner1 (icrc97 "https://a.example/1.json") 1 ++
        [update_meta 1 (icrc97 "https://a.example/2.json"); transfer owner1 owner2 1 all_ok; owned_by 1 owner2;
         first_meta 1 "icrc97:metadata" (url_is "https://a.example/2.json");
         update_meta 1 (icrc97 "https://a.example/3.json"); owned_by 1 owner2;
         first_meta 1 "icrc97:metadata" (url_is "https://a.example/3.json")]) = true.
Proof. vm_compute. reflexivity. Qed.

(** The settings not given at installation are reported as absent: test_icrc7.rs:988-1062,1403-1457; those given are
    reported: 26-59 (symbol and name), core_suite/tests/test_icrc37.rs:386-415. *)
Example icrc7_settings :
  test [setting (fun s => bool_decide (icrc7_max_memo_size s = None /\ icrc7_atomic_batch_transfers s = None /\
                                       icrc7_tx_window s = None /\ icrc7_permitted_drift s = None));
        setting (fun s => bool_decide (icrc7_max_take_value s = None /\ icrc7_description s = None /\ icrc7_logo s = None /\
                                       icrc7_symbol s = "MC"%string /\ icrc7_name s = "MyCollection"%string));
        setting (fun s => bool_decide (icrc37_max_approvals s = Some 10 /\ icrc37_max_revoke s = Some 10))] = true.
Proof. vm_compute. reflexivity. Qed.

(** [test_icrc7_transfer], test_icrc7.rs:1065-1132. *)
Example icrc7_transfer_ :
  test (mint owner1 1 ++ [transfer owner1 owner2 1 all_ok; owned_by 1 owner2]) = true.
Proof. vm_compute. reflexivity. Qed.

(** [test_icrc7_collection_metadata], test_icrc7.rs:1135-1195. *)
Definition coll_meta (k : string) (p : value -> bool) : line :=
  setting (fun s => existsb (fun kv => String.eqb (fst kv) k && p (snd kv)) (icrc7_collection_metadata s)).
Definition nat_is (n : N) (v : value) : bool := match v with VNat m => m =? n | _ => false end.
Example icrc7_collection_metadata_ :
  test ([coll_meta "icrc7:symbol" (fun v => value_text v "MC"); coll_meta "icrc7:name" (fun v => value_text v "MyCollection");
         coll_meta "icrc7:total_supply" (nat_is 0)] ++ mint owner1 1 ++ [coll_meta "icrc7:total_supply" (nat_is 1)]) = true.
Proof. vm_compute. reflexivity. Qed.

(** [test_icrc3_logs_metadata_updates], test_icrc7.rs:1198-1400: an update of the metadata is a block about the token. *)
Example icrc7_logs_metadata_updates :
  test (mint_nft owner1 (icrc97 "https://a.example/1.json") 1 ++
        [count_blocks "7update_token" 0; update_meta 1 (icrc97 "https://a.example/2.json"); count_blocks "7update_token" 1;
         setting (fun s => match last (map snd (log s)) with
                           | Some t => bool_decide (tx_btype t = "7update_token"%string /\ tx_tid t = Some 1)
                           | None => false end)]) = true.
Proof. vm_compute. reflexivity. Qed.

(** [test_icrc7_tokens], [test_icrc7_tokens_of], [test_icrc7_balance_of], test_icrc7.rs:1460-1707. *)
Example icrc7_lists :
  test ([tokens_are []; tokens_of_are owner1 []; balances [(owner1, 0)]] ++ mint owner1 1 ++
        [tokens_are [1]; tokens_of_are owner1 [1]; tokens_of_are owner2 []; balances [(owner1, 1); (owner2, 0)]] ++ mint owner2 2 ++
        [tokens_are [1; 2]; tokens_of_are owner1 [1]; tokens_of_are owner2 [2]; balances [(owner1, 1); (owner2, 1)]]) = true.
Proof. vm_compute. reflexivity. Qed.

(** [test_icrc7_transfer_batch], test_icrc7.rs:1710-1771; [.._batch_with_memo], 2090-2156; [.._batch_with_time_constraints],
    2252-2317. *)
Definition batch3 (memo : N -> option bytes) (at_ : N -> N -> option N) : list line :=
  flat_map (mint owner1) [1; 2; 3] ++
  [Call owner1 (fun now => OTransfer (map (fun i => mkTransferArg (ac owner2) (i + 1) (memo i) None (at_ now i)) [0; 1; 2]))
        (pattern [true; true; true]);
   owned_by 1 owner2; owned_by 2 owner2; owned_by 3 owner2].
Example icrc7_transfer_batch : test (batch3 (fun _ => None) (fun now _ => Some now)) = true.
Proof. vm_compute. reflexivity. Qed.
Example icrc7_transfer_batch_with_memo : test (batch3 (fun i => Some (text_memo i)) (fun now _ => Some now)) = true.
Proof. vm_compute. reflexivity. Qed.
Example icrc7_transfer_batch_with_time_constraints :
  test (batch3 (fun _ => None) (fun now i => Some (now + i * 1000000))) = true.
Proof. vm_compute. reflexivity. Qed.

(** [test_icrc7_transfer_invalid_recipient], test_icrc7.rs:1774-1830; [.._after_fail], 2544-2619. *)
Example icrc7_transfer_invalid_recipient :
  test (mint owner1 1 ++ [transfer owner1 anonymous 1 invalid_recipient; owned_by 1 owner1; transfer owner1 owner2 1 all_ok; owned_by 1 owner2]) = true.
Proof. vm_compute. reflexivity. Qed.

(** The four tests of creation times, test_icrc7.rs:1833-2087. *)
Example icrc7_transfer_created_in_future :
  test (mint owner1 1 ++ [transfer_at owner1 owner2 1 (fun now => Some (now + 100000000)) in_future; owned_by 1 owner1]) = true.
Proof. vm_compute. reflexivity. Qed.
Example icrc7_transfer_within_drift :
  test (mint owner1 1 ++ [transfer_at owner1 owner2 1 (fun now => Some (now + 10000000)) all_ok; owned_by 1 owner2]) = true.
Proof. vm_compute. reflexivity. Qed.
Example icrc7_transfer_too_old :
  test (mint owner1 1 ++ [transfer_at owner1 owner2 1 (fun now => Some (now - 3600000000000)) too_old; owned_by 1 owner1]) = true.
Proof. vm_compute. reflexivity. Qed.
Example icrc7_transfer_within_window :
  test (mint owner1 1 ++ [transfer_at owner1 owner2 1 (fun now => Some (now - 5000000000)) all_ok; owned_by 1 owner2]) = true.
Proof. vm_compute. reflexivity. Qed.

(** [test_icrc7_transfer_batch_with_subaccounts], test_icrc7.rs:2159-2249. *)
Example icrc7_transfer_batch_with_subaccounts :
  let sub n := Some (repeat n 32%nat) in
  test (mint_as controller (mkAcc owner1 (sub 1)) default_meta (token 1) ++
        mint_as controller (mkAcc owner1 (sub 2)) default_meta (token 2) ++
        [Call owner1 (fun now => OTransfer [mkTransferArg (ac owner2) 1 None (sub 1) (Some now); mkTransferArg (ac owner2) 2 None (sub 2) (Some now)])
              (pattern [true; true]);
         owned_by 1 owner2; owned_by 2 owner2]) = true.
Proof. vm_compute. reflexivity. Qed.

(** [test_icrc7_transfer_with_max_memo_size], test_icrc7.rs:2320-2385: a memo of a million bytes. *)
Example icrc7_transfer_with_max_memo_size :
  test (mint owner1 1 ++
        [Call owner1 (fun now => OTransfer [mkTransferArg (ac owner2) 1 (Some (repeat 1 (N.to_nat 1000000))) None (Some now)]) all_ok;
         owned_by 1 owner2]) = true.
Proof. vm_compute. reflexivity. Qed.

(** [test_icrc7_transfer_with_supply_cap], test_icrc7.rs:2388-2436: a full collection can be transferred. *)
Example icrc7_transfer_with_supply_cap :
  test (flat_map (mint owner1) [1; 2; 3; 4; 5; 6; 7; 8; 9; 10] ++ [transfer owner1 owner2 1 all_ok; owned_by 1 owner2; supply 10]) = true.
Proof. vm_compute. reflexivity. Qed.

(** [test_icrc7_transfer_chain], test_icrc7.rs:2439-2541: one creation time for the three transfers. *)
Example icrc7_transfer_chain :
  test (mint owner1 1 ++
        [transfer owner1 owner2 1 all_ok; owned_by 1 owner2;
         transfer_at owner2 owner3 1 (fun now => Some (now - 1)) all_ok; owned_by 1 owner3;
         transfer_at owner3 owner4 1 (fun now => Some (now - 2)) all_ok; owned_by 1 owner4]) = true.
Proof. vm_compute. reflexivity. Qed.

(** [test_icrc7_mint_with_hashmap_metadata], [.._complex_..], [.._and_update_metadata], test_icrc7.rs:2622-3009. *)
Definition rich_meta : list (string * value) :=
  [("name", VText "Complex"); ("description", VText "A complex NFT"); ("level", VNat 5); ("power", VInt (-3));
   ("tags", VArray [VText "a"; VText "b"]); ("stats", VMap [("hp", VNat 10)])]%string.
Example mint_with_hashmap_metadata :
  test (mint_nft owner1 rich_meta 1 ++
        [meta_size 1 6; meta_text 1 "name" "Complex"; meta_has 1 "level" (nat_is 5);
         meta_has 1 "tags" (fun v => match v with VArray l => bool_decide (length l = 2%nat) | _ => false end);
         update_meta 1 [("name", VText "Updated"); ("description", VText "New"); ("level", VNat 10); ("new_attribute", VText "x"); ("power", VInt 100)]%string;
         meta_text 1 "name" "Updated"; meta_text 1 "description" "New"; meta_has 1 "level" (nat_is 10); meta_text 1 "new_attribute" "x";
         meta_has 1 "power" (fun v => match v with VInt z => (z =? 100)%Z | _ => false end)]) = true.
Proof. vm_compute. reflexivity. Qed.

(** [test_icrc7_balance_of_comprehensive], test_icrc7.rs:3225-3472. *)
Example balance_of_comprehensive :
  test (mint owner1 1 ++
        [balances [(owner1, 1); (owner2, 0); (owner3, 0)]; transfer_at owner1 owner2 1 (fun _ => None) all_ok;
         balances [(owner1, 0); (owner2, 1); (owner3, 0)]; Pause minute; approve owner2 owner1 1 all_ok; Pause minute;
         transfer_from owner1 owner2 owner3 1 all_ok; balances [(owner1, 0); (owner2, 0); (owner3, 1)]; supply 1]) = true.
Proof. vm_compute. reflexivity. Qed.

(** * core_suite/tests/test_icrc37.rs *)

(** [test_icrc37_approve_tokens], test_icrc37.rs:24-100; [.._revoke_token_approvals], 187-287. *)
Example icrc37_approve_and_revoke :
  test (mint owner1 1 ++
        [approve owner1 owner2 1 all_ok; approved owner2 1 true; Pause minute; revoke owner1 owner2 1 all_ok; approved owner2 1 false]) = true.
Proof. vm_compute. reflexivity. Qed.

(** [test_icrc37_approve_collection], test_icrc37.rs:103-184. *)
Example icrc37_approve_collection :
  test (mint controller 1 ++ [approve_coll controller owner2 all_ok; coll_spenders controller [owner2]]) = true.
Proof. vm_compute. reflexivity. Qed.

(** [test_icrc37_transfer_from], test_icrc37.rs:290-383; [.._single_approval_authorized], 631-724. *)
Example icrc37_transfer_from :
  test (mint owner1 1 ++ [approve owner1 owner2 1 all_ok; Pause minute; transfer_from owner2 owner1 owner3 1 all_ok; owned_by 1 owner3]) = true.
Proof. vm_compute. reflexivity. Qed.

(** [test_icrc37_transfer_from_unauthorized_account], test_icrc37.rs:418-511. *)
Example icrc37_transfer_from_unauthorized :
  test (mint owner1 1 ++ [approve owner1 owner2 1 all_ok; Pause minute; transfer_from owner3 owner1 owner3 1 some_err; owned_by 1 owner1]) = true.
Proof. vm_compute. reflexivity. Qed.

(** [.._multiple_approvals_unauthorized], test_icrc37.rs:514-628; [.._multiple_approvals_authorized], 727-840. *)
Example icrc37_transfer_from_multiple :
  test (mint owner1 1 ++
        [Call owner1 (fun now => OApproveTokens [mkApproveArg 1 (info_at owner2 now); mkApproveArg 1 (info_at owner3 now)]) (pattern [true; true]);
         Pause minute; transfer_from owner4 owner1 owner4 1 some_err; owned_by 1 owner1;
         transfer_from owner3 owner1 owner4 1 all_ok; owned_by 1 owner4]) = true.
Proof. vm_compute. reflexivity. Qed.

(** [.._multiple_approvals_sequential_transfers], test_icrc37.rs:843-999: the first transfer ends the other approval. *)
Example icrc37_transfer_from_sequential :
  test (mint owner1 1 ++
        [approve owner1 owner2 1 all_ok; Pause minute; approve owner1 owner3 1 all_ok; Pause minute;
         transfer_from owner2 owner1 owner2 1 all_ok; owned_by 1 owner2; Pause minute;
         transfer_from owner3 owner2 owner3 1 some_err; owned_by 1 owner2]) = true.
Proof. vm_compute. reflexivity. Qed.

(** [test_icrc37_revoke_token_approvals_max_limit], test_icrc37.rs:1002-1202. *)
Definition spender (i : N) : principal := [100 + i].
Definition ten : list N := [0; 1; 2; 3; 4; 5; 6; 7; 8; 9].
Example icrc37_token_approvals_max_limit :
  test (mint owner1 1 ++ flat_map (fun i => [approve owner1 (spender i) 1 all_ok; Pause minute]) ten ++
        [approve owner1 (spender 10) 1 some_err; Pause minute;
         setting (fun s => bool_decide (length (icrc37_get_token_approvals id s 1 None None) = 10%nat))] ++
        flat_map (fun i => [revoke owner1 (spender i) 1 all_ok; Pause minute]) ten ++ [token_spenders 1 []]) = true.
Proof. vm_compute. reflexivity. Qed.

(** The same for collections, test_icrc37.rs:1205-1424,1427-1578. *)
Example icrc37_collection_approvals_max_limit :
  test (mint controller 1 ++ flat_map (fun i => [approve_coll controller (spender i) all_ok; Pause minute]) ten ++
        [approve_coll controller (spender 10) some_err; Pause minute;
         setting (fun s => bool_decide (length (icrc37_get_collection_approvals id s (ac controller) None None) = 10%nat))] ++
        flat_map (fun i => [revoke_coll controller (spender i) all_ok; Pause minute]) ten ++ [coll_spenders controller []]) = true.
Proof. vm_compute. reflexivity. Qed.

(** [test_icrc37_approve_collection_with_nft], test_icrc37.rs:1581-1706. *)
Example icrc37_approve_collection_with_nft :
  test (mint owner1 1 ++
        [approve_coll owner1 owner2 all_ok; Pause minute; transfer_from owner2 owner1 owner3 1 all_ok; owned_by 1 owner3]) = true.
Proof. vm_compute. reflexivity. Qed.

(** [.._approvals_reset_after_transfer_as_owner], test_icrc37.rs:1709-1902: an owner may use [icrc37_transfer_from] on their
    own token. *)
Example icrc37_approvals_reset_as_owner :
  test (mint owner1 1 ++
        [approve owner1 owner2 1 all_ok; Pause minute; approve_coll owner1 owner2 all_ok; Pause minute; approved owner2 1 true;
         transfer_from owner2 owner1 owner2 1 all_ok; owned_by 1 owner2; token_spenders 1 []; Pause minute;
         transfer_from owner2 owner2 owner3 1 all_ok; owned_by 1 owner3; token_spenders 1 []]) = true.
Proof. vm_compute. reflexivity. Qed.

(** [.._approvals_reset_after_transfer_with_approvals], test_icrc37.rs:1905-2117.  The collection approval of the first owner
    is gone as well: the test asserts what C26 is refuted by. *)
Example icrc37_approvals_reset_with_approvals :
  test (mint owner1 1 ++
        [approve owner1 owner2 1 all_ok; Pause minute; approve_coll owner1 owner2 all_ok; Pause minute; approved owner2 1 true;
         transfer_from owner2 owner1 owner3 1 all_ok; owned_by 1 owner3; Pause minute;
         transfer_from owner2 owner3 owner4 1 some_err; owned_by 1 owner3; token_spenders 1 []; coll_spenders owner1 []]) = true.
Proof. vm_compute. reflexivity. Qed.

(** [.._approve_and_revoke_before_transfer], test_icrc37.rs:2120-2243. *)
Example icrc37_revoke_before_transfer :
  test (mint owner1 1 ++
        [approve owner1 owner2 1 all_ok; Pause minute; revoke owner1 owner2 1 all_ok; Pause minute;
         transfer_from owner2 owner1 owner3 1 some_err; owned_by 1 owner1]) = true.
Proof. vm_compute. reflexivity. Qed.

(** [.._approve_with_expiration], test_icrc37.rs:2246-2345. *)
Example icrc37_expiration :
  test (mint owner1 1 ++
        [Call owner1 (fun now => OApproveTokens [mkApproveArg 1 (mkInfo (ac owner2) None (Some (now + minute)) None now)]) all_ok;
         approved owner2 1 true; Pause (2 * minute); approved owner2 1 false;
         transfer_from owner2 owner1 owner3 1 some_err; owned_by 1 owner1]) = true.
Proof. vm_compute. reflexivity. Qed.

(** [.._approve_with_subaccount], test_icrc37.rs:2348-2441; [.._with_memo], 2444-2537. *)
Example icrc37_subaccount :
  let sub := Some (repeat 1 32%nat) in
  test (mint_as controller (mkAcc owner1 sub) default_meta (token 1) ++
        [Call owner1 (fun now => OApproveTokens [mkApproveArg 1 (mkInfo (mkAcc owner2 sub) sub None (Some [1; 2; 3; 4]) now)]) all_ok; Pause minute;
         Call owner2 (fun now => OTransferFrom [mkTransferFromArg sub (mkAcc owner1 sub) (ac owner3) 1 None (Some now)]) all_ok;
         owned_by 1 owner3]) = true.
Proof. vm_compute. reflexivity. Qed.

(** [test_icrc37_approvals_persistence_after_upgrade], test_icrc37.rs:2540-2777. *)
Example icrc37_persistence_after_upgrade :
  test (mint owner1 1 ++
        [approve owner1 owner2 1 all_ok; Pause minute; approve_coll owner1 owner3 all_ok; Pause minute;
         token_spenders 1 [owner2]; coll_spenders owner1 [owner3];
         Call controller (fun _ => OUpgrade) (fun _ => true); Pause minute;
         token_spenders 1 [owner2]; coll_spenders owner1 [owner3]; approved owner2 1 true; owned_by 1 owner1;
         transfer_from owner2 owner1 owner4 1 all_ok; owned_by 1 owner4]) = true.
Proof. vm_compute. reflexivity. Qed.

(** [test_icrc37_approve_tokens_sliding_window_rate_limit], test_icrc37.rs:2780-2921. *)
Example icrc37_sliding_window_rate_limit :
  let ok a := negb (rate_limited a) in
  test (mint owner1 1 ++ flat_map (fun i => [approve owner1 (spender i) 1 ok; Pause 1000]) [0; 1; 2; 3; 4] ++
        [approve owner1 (spender 5) 1 rate_limited; Pause 60001000000000; approve owner1 (spender 6) 1 ok]) = true.
Proof. vm_compute. reflexivity. Qed.

(** * core_suite/tests/test_management.rs *)

(** Uploads: the call, then the answer of the storage canister, here [20;1]. *)
Definition storage_id : principal := [20; 1].
Definition path : string := "/test.png".
Definition init_upload (p : string) (k : N) : list line :=
  [Call controller (fun _ => OInitUpload p 1000) waiting; Call [] (fun _ => OReply k (RInitOk storage_id)) all_ok].
Definition chunk (p : string) (k : N) (r : reply) (check : answer -> bool) : list line :=
  [Call controller (fun _ => OStoreChunk p) waiting; Call [] (fun _ => OReply k r) check].
Definition finalize (p : string) (k : N) (r : reply) (check : answer -> bool) : list line :=
  [Call controller (fun _ => OFinalize p) waiting; Call [] (fun _ => OReply k r) check].
Definition upload_is (p : string) (st : option upload_state) : line :=
  setting (fun s => bool_decide (query_upload_status s controller p = Some st)).

(** [test_storage_simple], test_management.rs:39-219: the file is served by a redirection; [test_get_upload_status],
    1374-1445. *)
Example storage_simple :
  test ([upload_is path None] ++ init_upload path 0 ++ [upload_is path (Some UInit)] ++ chunk path 1 ROk all_ok ++
        [upload_is path (Some UInProgress)] ++ finalize path 2 ROk all_ok ++
        [upload_is path (Some UFinalized); setting (fun s => bool_decide (is_Some (redirs s !! path)))]) = true.
Proof. vm_compute. reflexivity. Qed.

(** [test_duplicate_upload], test_management.rs:222-270. *)
Example duplicate_upload :
  test (init_upload path 0 ++ [Call controller (fun _ => OInitUpload path 1000) call_err; upload_is path (Some UInit)]) = true.
Proof. vm_compute. reflexivity. Qed.

(** [test_duplicate_chunk_upload], test_management.rs:273-374: the storage canister's refusal is passed on, the upload can go
    on. *)
Example duplicate_chunk :
  test (init_upload path 0 ++ chunk path 1 ROk all_ok ++ chunk path 2 (RErr (EStorageCanisterError "InvalidChunkData")) call_err ++
        finalize path 3 ROk all_ok ++ [upload_is path (Some UFinalized)]) = true.
Proof. vm_compute. reflexivity. Qed.

(** [test_finalize_upload_missing_chunk], test_management.rs:377-458. *)
Example finalize_missing_chunk :
  test (init_upload path 0 ++ chunk path 1 ROk all_ok ++ finalize path 2 (RErr (EStorageCanisterError "IncompleteUpload")) call_err ++
        [upload_is path (Some UInProgress)]) = true.
Proof. vm_compute. reflexivity. Qed.

(** [test_cancel_upload], test_management.rs:461-548. *)
Example cancel_upload :
  test (init_upload path 0 ++ chunk path 1 ROk all_ok ++
        [Call controller (fun _ => OCancel path) waiting; Call [] (fun _ => OReply 2 ROk) all_ok; upload_is path None;
         Call controller (fun _ => OFinalize path) call_err]) = true.
Proof. vm_compute. reflexivity. Qed.

(** The seven tests of strangers, test_management.rs:929-1105 and 1556-1596: the guard rejects the call. *)
Definition no_update : collection_update :=
  mkCU None None None None None None None None None None None None None None None.
Example strangers_rejected :
  test (mint owner1 1 ++
        [Call owner1 (fun _ => OUpdateMeta 1 (icrc97 "x")) refused; Call owner1 (fun _ => OInitUpload path 1000) refused;
         Call owner1 (fun _ => OStoreChunk path) refused; Call owner1 (fun _ => OFinalize path) refused;
         Call owner1 (fun _ => OCancel path) refused; Call owner1 (fun _ => OMint [mkMint (ac owner1) None []]) refused;
         Call owner1 (fun _ => OUpdateCollection no_update) refused; supply 1]) = true.
Proof. vm_compute. reflexivity. Qed.

(** [test_mint_authorized], test_management.rs:1108-1185;
    [test_add_then_remove_minting_authorities_unauthorized], 1189-1251. *)
Example grant_and_revoke :
  test ([Call controller (fun _ => OGrant owner1 PMinting) all_ok] ++ mint_as owner1 (ac owner1) default_meta (token 1) ++
        [Call controller (fun _ => ORevokePerm owner1 PMinting) all_ok] ++ mint_as owner1 (ac owner1) default_meta refused ++ [supply 1]) = true.
Proof. vm_compute. reflexivity. Qed.

(** [test_get_all_uploads], test_management.rs:1448-1512. *)
Definition uploads_page_size (prev tk : option N) (n : nat) : line :=
  setting (fun s => match get_all_uploads id s controller prev tk with Some m => bool_decide (size m = n) | None => false end).
Example get_all_uploads_ :
  test (init_upload "/a.png" 0 ++ init_upload "/b.png" 1 ++ init_upload "/c.png" 2 ++
        [uploads_page_size None None 3; uploads_page_size (Some 0) (Some 2) 2; uploads_page_size (Some 2) (Some 2) 1]) = true.
Proof. vm_compute. reflexivity. Qed.

(** [test_update_collection_metadata], test_management.rs:1515-1552. *)
Definition full_update : collection_update :=
  mkCU (Some "Test Description") (Some "TEST") (Some "Test Collection") (Some "https://example.com/logo.png")
    (Some 1000) (Some 100) (Some 50) (Some 200) (Some 20) (Some 32) (Some true) (Some 3600) (Some 60) (Some 1000000) (Some []).
Example update_collection_metadata :
  test [Call controller (fun _ => OUpdateCollection full_update) all_ok;
        setting (fun s => bool_decide (icrc7_symbol s = "TEST"%string /\ icrc7_name s = "Test Collection"%string /\ icrc7_supply_cap s = Some 1000));
        setting (fun s => bool_decide (icrc7_max_take_value s = Some 200 /\ icrc7_max_memo_size s = Some 32 /\ icrc7_tx_window s = Some 3600))] = true.
Proof. vm_compute. reflexivity. Qed.

(** [test_permissions_add_and_remove_one_by_one], test_management.rs:1599-1914: each permission in turn opens its calls and revoking it closes them. *)
Definition with_perm (perm : permission) (inside : list line) (closed : list line) : list line :=
  closed ++ [Call controller (fun _ => OGrant owner1 perm) all_ok] ++ inside ++ [Call controller (fun _ => ORevokePerm owner1 perm) all_ok] ++ closed.
Example permissions_one_by_one :
  test (with_perm PMinting (mint_as owner1 (ac owner1) default_meta (token 1)) (mint_as owner1 (ac owner1) default_meta refused) ++
        with_perm PUpdateMetadata [Call owner1 (fun _ => OUpdateMeta 1 (icrc97 "x")) all_ok] [Call owner1 (fun _ => OUpdateMeta 1 (icrc97 "x")) refused] ++
        with_perm PUpdateUploads [Call owner1 (fun _ => OInitUpload path 1000) waiting; Call [] (fun _ => OReply 0 (RInitOk storage_id)) all_ok]
                                 [Call owner1 (fun _ => OInitUpload path 1000) refused] ++
        with_perm PReadUploads [setting (fun s => bool_decide (query_upload_status s owner1 path = Some (Some UInit)))]
                               [setting (fun s => bool_decide (query_upload_status s owner1 path = None))] ++
        with_perm PUpdateCollectionMetadata [Call owner1 (fun _ => OUpdateCollection full_update) all_ok]
                                            [Call owner1 (fun _ => OUpdateCollection full_update) refused] ++
        with_perm PManageAuthorities [Call owner1 (fun _ => OGrant owner2 PMinting) all_ok] [Call owner1 (fun _ => OGrant owner2 PMinting) refused])
  = true.
Proof. vm_compute. reflexivity. Qed.

(** * core_suite/tests/test_icrc3.rs *)

(** [test_icrc3_get_blocks_after_multiple_operations], test_icrc3.rs:101-268; [test_icrc3_supported_block_types],
    356-388. *)
Example icrc3_blocks :
  test (flat_map (mint owner1) [1; 2; 3; 4; 5] ++
        [transfer owner1 owner2 1 all_ok; transfer owner1 owner2 2 all_ok; transfer owner1 owner2 3 all_ok;
         count_blocks "7mint" 5; count_blocks "7xfer" 3]) = true.
Proof. vm_compute. reflexivity. Qed.
Example icrc3_supported_block_types :
  forallb (fun ty => existsb (String.eqb ty) supported_blocks) ["7mint"; "7burn"; "7xfer"; "7update_token"]%string = true.
Proof. vm_compute. reflexivity. Qed.

(** * index_suite/tests/test_index.rs

    A test fills the ledger and lets the index catch up (one round asks for up to 100 blocks); then it queries.  [put] is
    the form the log's library gives to a block's fields (C65). *)
Definition put_account (k : string) (a : option account) : list (string * value) :=
  match a with Some a => [(k, VText (principal_text (acc_owner a)))] | None => [] end.
Definition put (t : tx) : value :=
  VMap [("btype", VText (tx_btype t));
        ("tx", VMap (put_account "from" (tx_from t) ++ put_account "to" (tx_to t) ++ put_account "spender" (tx_spender t) ++
                     match tx_tid t with Some n => [("tid", VNat n)] | None => [] end))]%string.
Definition numbered (s : state) : list block := imap (fun i t => (N.of_nat i, put t)) (map snd (log s)).

(** The ledger after the calls of a test. *)
Fixpoint after (now : N) (l : list line) (s : state) : state :=
  match l with
  | [] => s
  | Call who o _ :: r => after (now + 1) r (fst (step (mkEnv who now (fun k _ => LOk k)) (o now) s))
  | See _ :: r => after now r s
  | Pause ns :: r => after (now + ns) r s
  end.
Definition ledger (l : list line) : list block :=
  match init controller (fun _ => true) (setup_args None None) with Some s => numbered (after start_time l s) | None => [] end.
(** The index after one update round answered by that ledger. *)
Definition caught_up (bs : list block) : istate :=
  fst (istep 2 (IReply 0 (RLedger [] bs)) (fst (istep 1 IUpdate istart))).
(** Ids answered to a query; asked for ids beyond its end, the ledger has nothing. *)
Definition query (bs : list block) (start len : N) (filters : list ikey) (sort : option bool) : list N :=
  let s := caught_up bs in
  match istep 3 (IGet start len filters sort) s with
  | (_, IBlocks l _) => map fst l
  | (s', IWait k) => match istep 4 (IReply k (RLedger [] [])) s' with (_, IBlocks l _) => map fst l | _ => [] end
  | _ => []
  end.
Definition seen (p : principal) : ikey := KAccount (akey (ac p)).

(** [test_icrc7_transfer_simple_index], test_index.rs:17-59; [test_get_blocks_mints_and_transfers], 134-233. *)
Example index_single_mint : query (ledger (mint owner1 1)) 0 10 [] None = [0].
Proof. vm_compute. reflexivity. Qed.
Example index_mints_and_transfers :
  let l := ledger (flat_map (mint owner1) [1; 2; 3] ++ map (fun t => transfer_at owner1 owner2 t (fun _ => None) all_ok) [1; 2; 3]) in
  query l 0 10 [] None = [0; 1; 2; 3; 4; 5].
Proof. vm_compute. reflexivity. Qed.

(** [test_get_blocks_large_sequence], test_index.rs:364-493: 10 mints, 5 transfers, 3 updates. *)
Example index_many :
  let l := ledger (flat_map (mint owner1) [1; 2; 3; 4; 5; 6; 7; 8; 9; 10] ++
                   map (fun t => transfer_at owner1 owner2 t (fun _ => None) all_ok) [1; 2; 3; 4; 5] ++
                   map (fun t => update_meta t (icrc97 "x")) [1; 2; 3]) in
  length (query l 0 50 [] None) = 18%nat.
Proof. vm_compute. reflexivity. Qed.

(** [test_get_blocks_pagination], test_index.rs:496-627: pages of 8 blocks. *)
Example index_pagination :
  let l := ledger (flat_map (mint owner1) [1; 2; 3; 4; 5] ++ map (fun t => transfer_at owner1 owner2 t (fun _ => None) all_ok) [1; 2; 3]) in
  map (fun a => query l a 3 [] None) [0; 3; 6] = [[0; 1; 2]; [3; 4; 5]; [6; 7]].
Proof. vm_compute. reflexivity. Qed.

(** [test_get_blocks_with_real_filters], test_index.rs:630-757. *)
Example index_filters :
  let l := ledger (flat_map (mint owner1) [1; 2; 3] ++ [transfer_at owner1 owner2 1 (fun _ => None) all_ok]) in
  query l 0 10 [KType "7mint"] None = [0; 1; 2] /\ query l 0 10 [KType "7xfer"] None = [3].
Proof. vm_compute. split; reflexivity. Qed.

(** [test_get_blocks_complex_filters_and_ordering], test_index.rs:760-1174. *)
Definition complex : list line :=
  mint owner1 1 ++ mint owner2 2 ++ mint owner1 3 ++ mint owner2 4 ++ mint owner1 5 ++
  [transfer_at owner1 owner2 1 (fun _ => None) all_ok; transfer_at owner2 owner1 2 (fun _ => None) all_ok;
   transfer_at owner1 owner2 3 (fun _ => None) all_ok; update_meta 1 (icrc97 "x"); update_meta 2 (icrc97 "x");
   transfer_at owner2 owner1 4 (fun _ => None) all_ok].
Example index_complex :
  let l := ledger complex in
  query l 0 20 [] (Some false) = [0; 1; 2; 3; 4; 5; 6; 7; 8; 9; 10] /\
  query l 0 20 [] (Some true) = [10; 9; 8; 7; 6; 5; 4; 3; 2; 1; 0] /\
  query l 0 20 [KType "7mint"] (Some false) = [0; 1; 2; 3; 4] /\
  query l 0 20 [KType "7xfer"] (Some true) = [10; 7; 6; 5] /\
  query l 0 20 [seen owner1] (Some false) = [0; 2; 4; 5; 6; 7; 10] /\
  query l 0 20 [seen owner1; KType "7mint"] (Some false) = [0; 2; 4] /\
  query l 1 1 [seen owner1; KType "7mint"] (Some false) = [2].
Proof. vm_compute. repeat split. Qed.

(** [test_get_blocks_descending_order_with_limit], test_index.rs:1177-1397: without filters the start is ignored in
    descending order, and the test asserts just that: the "next" ten blocks begin with the last one again (C60). *)
Definition twenty : list line :=
  flat_map (fun i => mint (if N.even i then owner2 else owner1) i) [1; 2; 3; 4; 5; 6; 7; 8; 9; 10; 11; 12; 13; 14; 15] ++
  map (fun i => transfer_at (if N.even i then owner2 else owner1) (if N.even i then owner1 else owner2) i (fun _ => None) all_ok) [1; 2; 3; 4; 5].
Example index_descending_with_limit :
  let l := ledger twenty in
  query l 0 50 [] (Some true) = rev (range 0 20) /\
  query l 0 10 [] (Some true) = rev (range 10 20) /\
  query l 10 10 [] (Some true) = rev (range 10 20).
Proof. vm_compute. repeat split. Qed.

(** [test_get_blocks_filter_by_token_id], test_index.rs:1400-1715. *)
Example index_token_filter :
  let l := ledger (flat_map (mint owner1) [1; 2; 3; 4; 5] ++
                   [transfer_at owner1 owner2 1 (fun _ => None) all_ok; transfer_at owner1 owner2 2 (fun _ => None) all_ok]) in
  query l 0 10 [KToken 1] None = [0; 5] /\ query l 0 10 [KToken 2] None = [1; 6] /\ query l 0 10 [KToken 5] None = [4] /\
  query l 0 10 [KToken 999] None = [] /\ query l 0 10 [KToken 1; KType "7mint"] None = [0].
Proof. vm_compute. repeat split. Qed.

(** * Unit tests inside the crates *)

(** [test_group_consecutive_block_ids_*], src/index_icrc7/src/blocks.rs:633-700, all nine. *)
Example group_consecutive_tests :
  map group_consecutive
    [[]; [42]; [1; 2; 3; 4; 5]; [1; 3; 5; 7; 9]; [1; 2; 3; 5; 6; 8; 9; 10]; [1; 2; 5; 6; 7; 10; 11; 15];
     [1000; 1001; 1002; 2000; 2001; 3000]; [0; 1; 2; 3]; [5; 4; 3; 2; 1]]
  = [[]; [[42]]; [[1; 2; 3; 4; 5]]; [[1]; [3]; [5]; [7]; [9]]; [[1; 2; 3]; [5; 6]; [8; 9; 10]]; [[1; 2]; [5; 6; 7]; [10; 11]; [15]];
     [[1000; 1001; 1002]; [2000; 2001]; [3000]]; [[0; 1; 2; 3]]; [[5]; [4]; [3]; [2]; [1]]].
Proof. vm_compute. reflexivity. Qed.
