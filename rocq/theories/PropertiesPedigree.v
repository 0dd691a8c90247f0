(** C174: where permissions come from. *)
From Verif Require Import Base ModelPrincipal ModelState ModelIcrc7 ModelIcrc37 ModelManagement ModelLifecycle
  ModelQueries ModelStep ProofsItems ProofsManage ProofsMicro Spec ProofsCore ProofsOwner ProofsLock Scenario
  PropertiesManage PropertiesPowers.

(** The permissions named at installation. *)
Definition installed (caller : principal) (a : init_args) (p : principal) (x : permission) : Prop :=
  (exists l, i_permissions a !! p = Some l /\ x ∈ l) \/ (i_test_mode a = true /\ p = caller).

(** A chain of grants from the installation to [p].  Each link is a grant in the history that was answered [Ok], made by
    somebody who held ManageAuthorities at that moment and had a chain for it of their own; what it granted was never lost
    since. *)
Inductive chain (caller : principal) (a : init_args) (s0 : state) : history -> principal -> permission -> Prop :=
| chain_installed h p x :
    installed caller a p x -> (forall h3 h4, h = h3 ++ h4 -> holds (run h3 s0) p x) -> chain caller a s0 h p x
| chain_granted h1 e h2 p x :
    holds (run h1 s0) (e_caller e) PManageAuthorities -> snd (step e (OGrant p x) (run h1 s0)) = AOk ->
    (forall h3 h4, h2 = h3 ++ h4 -> holds (run (h1 ++ (e, OGrant p x) :: h3) s0) p x) ->
    chain caller a s0 h1 (e_caller e) PManageAuthorities -> chain caller a s0 (h1 ++ (e, OGrant p x) :: h2) p x.

Lemma snoc_split {A} (l l1 l2 : list A) (m : A) :
  l ++ [m] = l1 ++ l2 -> l1 = l ++ [m] \/ exists l3, l = l1 ++ l3.
Proof.
  destruct l2 as [|y l2 _] using rev_ind; intros E; [left; rewrite app_nil_r in E; auto|].
  right. rewrite app_assoc in E. apply app_inj_tail in E. destruct E as [-> _]. eauto.
Qed.

Lemma chain_later caller a s0 h m p x :
  chain caller a s0 h p x -> holds (run (h ++ [m]) s0) p x -> chain caller a s0 (h ++ [m]) p x.
Proof.
  intros [h0 q y I K|h1 e h2 q y M An K C] H.
  - apply chain_installed; [exact I|]. intros h3 h4 E. destruct (snoc_split _ _ _ _ E) as [->|[h5 ->]]; [exact H|].
    eapply K. reflexivity.
  - rewrite <- app_assoc in *. simpl in *. apply chain_granted; auto.
    intros h3 h4 E. destruct (snoc_split _ _ _ _ E) as [->|[h5 ->]]; [exact H|]. eapply K. reflexivity.
Qed.

Lemma holds_dec s p x : holds s p x \/ ~ holds s p x.
Proof. rewrite <- holds_iff. destruct (has_permission s p x); [left|right]; congruence. Qed.

(** ** C174 *)

(** Whoever holds a permission has a chain of grants that begins at the installation. *)
Theorem C174_chain caller url_ok a s0 h p x :
  init caller url_ok a = Some s0 -> holds (run h s0) p x -> chain caller a s0 h p x.
Proof.
  intros I. revert p x. induction h as [|[e o] h IH] using rev_ind; intros p x H.
  - apply chain_installed.
    + destruct (C34_origin caller url_ok a s0 [] p x I H) as [X|[X|(ev & X & _)]]; [left; exact X|right; exact X|].
      apply elem_of_nil in X. contradiction.
    + intros h3 h4 E. symmetry in E. apply app_nil in E. destruct E as [-> _]. exact H.
  - destruct (holds_dec (run h s0) p x) as [B|B]; [apply chain_later; [apply IH, B|exact H]|].
    set (ev := mkEv (run h s0) e o (snd (step e o (run h s0))) (fst (step e o (run h s0)))).
    assert (T : ev ∈ trace [(e, o)] (run h s0)).
    { simpl. unfold ev. destruct (step e o (run h s0)) as [s1 an]. left. }
    pose proof H as H'. rewrite run_app in H'. simpl in H'.
    destruct (proj1 (C34_only_managers [(e, o)] (run h s0) ev p x T) H' B) as (O & An & M). simpl in O, An, M. subst o.
    apply chain_granted; auto.
    intros h3 h4 E. symmetry in E. apply app_nil in E. destruct E as [-> _]. exact H.
Qed.
Print Assumptions C174_chain.

(** So does whoever is not turned away from a management call. *)
Theorem C174_acts caller url_ok a s0 h e o perm :
  init caller url_ok a = Some s0 -> required o = Some perm ->
  (forall msg, snd (step e o (run h s0)) <> AReject msg) -> chain caller a s0 h (e_caller e) perm.
Proof.
  intros I R N. destruct (holds_dec (run h s0) (e_caller e) perm) as [H|H]; [eapply C174_chain; eauto|].
  destruct (C33_permission_needed e o (run h s0) perm R H) as [msg S]. exfalso. apply (N msg). rewrite S. reflexivity.
Qed.
Print Assumptions C174_acts.

(** And every token was minted by somebody with such a chain. *)
Theorem C174_tokens caller url_ok a s0 h t :
  init caller url_ok a = Some s0 -> owners (run h s0) !! t <> None ->
  exists h1 e l h2, h = h1 ++ (e, OMint l) :: h2 /\ owners (run h1 s0) !! t = None /\
    owners (run (h1 ++ [(e, OMint l)]) s0) !! t <> None /\ chain caller a s0 h1 (e_caller e) PMinting.
Proof.
  intros I. induction h as [|[e o] h IH] using rev_ind; intros H.
  - exfalso. apply H. destruct (init_inv _ _ _ _ I) as (_ & _ & _ & _ & ->). reflexivity.
  - destruct (owners (run h s0) !! t) as [w|] eqn:B.
    + destruct IH as (h1 & e1 & l & h2 & -> & X); [discriminate|]. exists h1, e1, l, (h2 ++ [(e, o)]).
      rewrite <- app_assoc. split; [reflexivity|exact X].
    + assert (R : reachable (run h s0)) by (exists caller, url_ok, a, s0, h; auto).
      pose proof H as H'. rewrite run_app in H'. simpl in H'.
      destruct (C148_own_part e o (run h s0) R) as (_ & _ & M & _). destruct (M t B H') as [Q P].
      destruct o as [| | | | | | |l| | | | | | | | | |]; try discriminate Q. exists h, e, l, [].
      split; [reflexivity|]. split; [exact B|]. split; [exact H|]. eapply C174_chain; eauto.
Qed.
Print Assumptions C174_tokens.

(** A circle of people that contains everybody named at installation and grants nothing to outsiders keeps all permissions to
    itself, whatever others try. *)
Theorem C174_circle caller url_ok a s0 h (G : principal -> Prop) :
  init caller url_ok a = Some s0 -> (forall p x, installed caller a p x -> G p) ->
  (forall e p x, (e, OGrant p x) ∈ h -> G (e_caller e) -> G p) ->
  forall p x, holds (run h s0) p x -> G p.
Proof.
  intros I In Cl p x H. apply (C174_chain caller url_ok a s0 h p x I) in H. revert Cl.
  induction H as [h p x X _|h1 e h2 p x _ _ _ C IH]; intros Cl; [eapply In; eauto|].
  apply (Cl e p x); [apply elem_of_app; right; left|]. apply IH. intros e1 p1 x1 E. apply (Cl e1 p1 x1).
  apply elem_of_app. left. exact E.
Qed.
Print Assumptions C174_circle.

(** admin lets bob manage, bob lets carol mint, admin takes bob's right away, carol mints; alice grants in vain. *)
Definition grants_h : history :=
  [(from_ admin 1, OGrant bob PManageAuthorities); (from_ bob 2, OGrant carol PMinting);
   (from_ admin 3, ORevokePerm bob PManageAuthorities); (from_ alice 4, OGrant alice PMinting); (from_ carol 5, mint3)].

Example C174_example :
  init admin (fun _ => true) demo_args = Some demo0 /\
  holds (run grants_h demo0) carol PMinting /\ ~ holds (run grants_h demo0) bob PManageAuthorities /\
  chain admin demo_args demo0 grants_h carol PMinting /\ installed admin demo_args admin PManageAuthorities /\
  owners (run grants_h demo0) !! 1 = Some (acct alice) /\ required mint3 = Some PMinting /\
  snd (step (from_ carol 5) mint3 (run (take 4 grants_h) demo0)) = ANat 1.
Proof.
  split; [apply demo0_init|]. split; [apply holds_iff; vm_compute; reflexivity|].
  split; [rewrite <- holds_iff; vm_compute; discriminate|].
  assert (A : installed admin demo_args admin PManageAuthorities).
  { left. eexists. split; [vm_compute; reflexivity|]. apply (bool_decide_unpack _). vm_compute. exact Logic.I. }
  split; [|split; [exact A|splits; vm_compute; reflexivity]].
  eapply C174_chain; [apply demo0_init|]. apply holds_iff. vm_compute. reflexivity.
Qed.

Example C174_circle_example :
  let G := fun p => p = admin \/ p = bob \/ p = carol in
  (forall p x, installed admin demo_args p x -> G p) /\
  (forall e p x, (e, OGrant p x) ∈ grants_h -> G (e_caller e) -> G p).
Proof.
  split.
  - intros p x [(l & L & _)|[T _]]; [|vm_compute in T; discriminate T].
    left. destruct (decide (p = admin)) as [E|N]; [exact E|]. exfalso. revert L.
    unfold demo_args. cbn [i_permissions]. rewrite ?lookup_insert_ne, ?lookup_singleton_ne by (intros X; apply N; rewrite <- X; reflexivity).
    rewrite ?lookup_empty. discriminate.
  - intros e p x H. unfold grants_h in H.
    repeat (apply elem_of_cons in H; destruct H as [H|H]; [try discriminate H; injection H as -> -> ->|]); [| | |apply elem_of_nil in H; contradiction].
    + auto.
    + auto.
    + intros [C|[C|C]]; vm_compute in C; discriminate C.
Qed.
