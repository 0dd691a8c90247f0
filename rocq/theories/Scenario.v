(** Concrete installation and calls used to show that the hypotheses of the theorems are met. *)
From Verif Require Import Base ModelPrincipal ModelState ModelIcrc7 ModelIcrc37 ModelManagement ModelLifecycle
  ModelQueries ModelStep Spec.

Definition alice : principal := [1].
Definition bob : principal := [2].
Definition carol : principal := [3].
Definition admin : principal := [9].
Definition acct (p : principal) : account := mkAcc p None.
Definition t0 : N := 1000000000000.
(** Message of [who] at [t0 + dt]; the log accepts everything. *)
Definition from_ (who : principal) (dt : N) : env := mkEnv who (t0 + dt) (fun k _ => LOk k).
Definition with_log (f : N -> tx -> logans) (e : env) : env := mkEnv (e_caller e) (e_now e) f.

Definition all_permissions : list permission :=
  [PMinting; PManageAuthorities; PUpdateMetadata; PUpdateCollectionMetadata; PReadUploads; PUpdateUploads].
Definition demo_args : init_args :=
  mkInit false {[admin := all_permissions]} None "SYM" "Name" None (Some 100) None None None None (Some 10) None
         None None None [] None None.
Definition demo_init (a : init_args) : state :=
  mkSt (init_cfg a) (if i_test_mode a then test_mode_grants admin (i_permissions a) else i_permissions a)
       ∅ ∅ 1 ∅ [] ∅ ∅ ∅ ∅ ∅ ∅ [] 0 ∅ 0.
Definition demo0 : state := demo_init demo_args.

Lemma demo0_init : init admin (fun _ => true) demo_args = Some demo0.
Proof. reflexivity. Qed.

Lemma demo_reachable h : reachable (run h demo0).
Proof. exists admin, (fun _ => true), demo_args, demo0, h. split; [apply demo0_init|reflexivity]. Qed.

(** Tokens 1 and 2 to alice, 3 to bob. *)
Definition mint3 : op :=
  OMint [mkMint (acct alice) None [("a"%string, VNat 1)]; mkMint (acct alice) None []; mkMint (acct bob) None []].
Definition demo1 : state := run [(from_ admin 0, mint3)] demo0.
Definition demo1_h : history := [(from_ admin 0, mint3)].

Definition xfer (to : principal) (t : N) : transfer_arg := mkTransferArg (acct to) t None None None.
Definition info (sp : principal) (dt : N) (ex : option N) : approval_info := mkInfo (acct sp) None ex None (t0 + dt).
Definition appr (t : N) (sp : principal) (dt : N) (ex : option N) : approve_arg := mkApproveArg t (info sp dt ex).
Definition tfrom (from to : principal) (t : N) : transfer_from_arg :=
  mkTransferFromArg None (acct from) (acct to) t None None.

(** bob approved on token 1 by alice, carol on alice's collection. *)
Definition demo2_h : history :=
  demo1_h ++ [(from_ alice 1000000000, OApproveTokens [appr 1 bob 1000000000 None]);
              (from_ alice 2000000000, OApproveCollection [info carol 2000000000 (Some (t0 + 9000000000))])].
Definition demo2 : state := run demo2_h demo0.

Lemma snd_pair {A B} (p : A * B) b : snd p = b -> p = (fst p, b).
Proof. intros <-. apply surjective_pairing. Qed.


(** Emptiness of maps and sets, by computation on sizes. *)
Lemma map_empty_size {A} (m : gmap N A) : size m = 0%nat -> m = ∅.
Proof. apply map_size_empty_inv. Qed.
Lemma set_empty_size (g : gset principal) : size g = 0%nat -> g = ∅.
Proof. intros H. apply leibniz_equiv, size_empty_inv, H. Qed.
Lemma set_not_empty_size (g : gset principal) : size g <> 0%nat -> g <> ∅.
Proof. intros H ->. apply H, size_empty. Qed.
