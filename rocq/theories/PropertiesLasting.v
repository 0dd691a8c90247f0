(** C170: what was served once. *)
From Verif Require Import Base ModelPrincipal ModelState ModelIcrc7 ModelIcrc37 ModelManagement ModelLifecycle
  ModelQueries ModelStep ModelHttp ProofsItems ProofsManage ProofsMicro Spec ProofsCore ProofsUploads Scenario
  PropertiesUploads PropertiesHttp PropertiesCover.

(** A file is complete under the path [k]. *)
Definition complete (s : state) (k : string) : Prop := status s k = Some UFinalized.

Lemma complete_iff s k : complete s k <-> exists u, files s !! k = Some u /\ u_state u = UFinalized.
Proof.
  unfold complete, status. destruct (files s !! k) as [u|]; simpl; split.
  - intros H. injection H as H. eauto.
  - intros (v & H & K). injection H as ->. rewrite K. reflexivity.
  - discriminate.
  - intros (v & H & _). discriminate.
Qed.

Lemma complete_stays h s k : reachable s -> complete s k -> complete (run h s) k.
Proof.
  rewrite !complete_iff. intros R (u & F & K). exists u. split; [apply C48_finalized_record; assumption|exact K].
Qed.

(** A redirection changes only when a further upload with that path is completed. *)
Lemma redirection_cause e o s p :
  up_inv s -> redirs (fst (step e o s)) !! p <> redirs s !! p ->
  exists k, norm_path k = p /\ ~ complete s k /\ complete (fst (step e o s)) k.
Proof.
  intros U H.
  assert (D : (exists id r, o = OReply id r) \/ (forall id r, o <> OReply id r)) by (destruct o; eauto; right; discriminate).
  destruct D as [(id & r & ->)|D].
  2: { pose proof (step_files e o s U D) as (_ & E & _). rewrite E in H. contradiction. }
  revert H. simpl. unfold resume. destruct (pend s !! id) as [q|] eqn:Hp; [|simpl; contradiction].
  pose proof (up_pend s U _ _ Hp) as OK.
  destruct q as [c path snap|c key i cn path|c key i cn path|c key], r as [cc|cr er| |er|]; simpl; try contradiction.
  destruct OK as (u & F & N0 & -> & -> & ->). rewrite (up_path s U _ _ F). intros H.
  destruct (decide (norm_path key = p)) as [<-|Hne]; [|rewrite lookup_insert_ne in H by exact Hne; contradiction].
  exists key. split; [reflexivity|]. split.
  - rewrite complete_iff. intros (v & F' & K). rewrite F in F'. injection F' as <-. congruence.
  - rewrite complete_iff. eexists. simpl. rewrite lookup_insert. split; reflexivity.
Qed.

Lemma redirection_cause_run h : forall s p,
  reachable s -> redirs (run h s) !! p <> redirs s !! p ->
  exists k, norm_path k = p /\ ~ complete s k /\ complete (run h s) k.
Proof.
  induction h as [|[e o] h IH]; intros s p R H; simpl in *; [contradiction|].
  pose proof (reachable_step e o s R) as R1.
  destruct (decide (redirs (fst (step e o s)) !! p = redirs s !! p)) as [E|E].
  - rewrite <- E in H. destruct (IH _ _ R1 H) as (k & K1 & K2 & K3). exists k. split; [exact K1|]. split; [|exact K3].
    intros C. apply K2. apply (complete_stays [(e, o)]); assumption.
  - destruct (redirection_cause e o s p (reachable_up_inv s R) E) as (k & K1 & K2 & K3). exists k.
    split; [exact K1|]. split; [exact K2|]. apply complete_stays; assumption.
Qed.

(** At most two spellings come to the same path. *)
Lemma spellings a b c p : norm_path a = p -> norm_path b = p -> norm_path c = p -> a = b \/ a = c \/ b = c.
Proof.
  intros A B C.
  assert (X := proj2 (C49_norm_path a b)). assert (Y := proj2 (C49_norm_path a c)). assert (Z := proj2 (C49_norm_path b c)).
  rewrite A, B in X. rewrite A, C in Y. rewrite B, C in Z.
  specialize (X eq_refl). specialize (Y eq_refl). specialize (Z eq_refl).
  destruct X as [X|X]; [auto|]. destruct Y as [Y|Y]; [auto|]. destruct Z as [Z|Z]; [auto|]. exfalso.
  assert (X' : String.length a = S (String.length b) \/ String.length b = S (String.length a))
    by (destruct X as [-> | ->]; simpl; auto).
  assert (Y' : String.length a = S (String.length c) \/ String.length c = S (String.length a))
    by (destruct Y as [-> | ->]; simpl; auto).
  assert (Z' : String.length b = S (String.length c) \/ String.length c = S (String.length b))
    by (destruct Z as [-> | ->]; simpl; auto).
  lia.
Qed.

(** The address a visitor of [path] is sent to. *)
Definition sent_to (path : string) (h : http) : option string :=
  match http_request path h with RRedirect to _ => Some to | _ => None end.

Lemma http_further l s h s' h' :
  http_reachable s h -> orders_ok l -> http_run l s h = (s', h') -> http_reachable s' h' /\ s' = run (map fst l) s.
Proof.
  intros (c & f & a & s0 & g & I & O & G) Ol H. split.
  - exists c, f, a, s0, (g ++ l). split; [exact I|]. split; [apply Forall_app; auto|].
    revert G H. clear. generalize s0, http_init. induction g as [|[[e o] r] g IH]; intros x y G H; simpl in *.
    + injection G as -> ->. exact H.
    + apply IH; assumption.
  - rewrite <- (http_run_state l s h), H. reflexivity.
Qed.

Lemma sent_to_spec s h path : http_reachable s h -> ~ reserved path -> sent_to path h = redirs s !! path.
Proof.
  intros R N. destruct (reachable_router s h R) as [R1 _]. unfold sent_to.
  assert (E : http_request path h = serve_asset path h).
  { unfold http_request, reserved in *. rewrite !elem_of_cons in N.
    destruct (String.eqb path "/logs") eqn:E1; [apply String.eqb_eq in E1; tauto|].
    destruct (String.eqb path "/traces") eqn:E2; [apply String.eqb_eq in E2; tauto|].
    destruct (String.eqb path "/metrics") eqn:E3; [apply String.eqb_eq in E3; tauto|reflexivity]. }
  rewrite E. unfold serve_asset. rewrite R1. destruct (redirs s !! path); reflexivity.
Qed.

(** ** C170 *)

(** What was served once is served ever after, with the platform's word for it; the address is that of a storage canister
    of the ledger on which the file was completed. *)
Theorem C170_still_served s h path to l s' h' :
  http_reachable s h -> sent_to path h = Some to -> orders_ok l -> http_run l s h = (s', h') ->
  exists to' k u, sent_to path h' = Some to' /\ vouched path h' (http_request path h') /\
    files s' !! k = Some u /\ u_state u = UFinalized /\ norm_path k = path /\
    to' = redirection_url (u_canister u) path /\ u_canister u ∈ subs s'.
Proof.
  intros R T O H. destruct (http_further _ _ _ _ _ R O H) as [R' E].
  assert (N : ~ reserved path).
  { intros X. revert T. unfold sent_to, http_request. unfold reserved in X. rewrite !elem_of_cons, elem_of_nil in X.
    destruct X as [->|[->|[->|[]]]]; simpl; discriminate. }
  rewrite (sent_to_spec s h path R N) in T.
  pose proof (http_reachable_state _ _ R) as Rs. pose proof (http_reachable_state _ _ R') as Rs'.
  destruct (C79_served_partial s' h' path R' N) as [(_ & k & u & F & K & P & w & Q & V)|(X & _)].
  - exists (redirection_url (u_canister u) path), k, u. unfold sent_to. rewrite Q. split; [reflexivity|].
    split; [rewrite <- Q; exact V|]. do 3 (split; [assumption|]). split; [reflexivity|].
    apply (C47_canister_known s' k u Rs' F).
  - exfalso. destruct (proj2 (C49_redirections_exact s path Rs) to T) as (k & u & F & K & P & _).
    apply (X k u); [rewrite E; apply C48_finalized_record; assumption|exact K|exact P].
Qed.
Print Assumptions C170_still_served.

(** The address stays the same as long as no file is completed under the other spelling of the path.
    Missing: that the other spelling is refused (it is not, see below). *)
Theorem C170_same_address_partial s h path to l s' h' :
  http_reachable s h -> sent_to path h = Some to -> orders_ok l -> http_run l s h = (s', h') ->
  (forall k, norm_path k = path -> complete s' k -> complete s k) -> sent_to path h' = Some to.
Proof.
  intros R T O H C. destruct (http_further _ _ _ _ _ R O H) as [R' E].
  assert (N : ~ reserved path).
  { intros X. revert T. unfold sent_to, http_request. unfold reserved in X. rewrite !elem_of_cons, elem_of_nil in X.
    destruct X as [->|[->|[->|[]]]]; simpl; discriminate. }
  rewrite (sent_to_spec _ _ _ R N) in T. rewrite (sent_to_spec _ _ _ R' N). rewrite <- T.
  destruct (decide (redirs s' !! path = redirs s !! path)) as [D|D]; [exact D|]. exfalso. rewrite E in D.
  destruct (redirection_cause_run _ _ _ (http_reachable_state _ _ R) D) as (k & K1 & K2 & K3).
  apply K2, C; [exact K1|rewrite E; exact K3].
Qed.
Print Assumptions C170_same_address_partial.

(** An address changes once at most: after it has changed it stays.  Missing: that it never changes. *)
Theorem C170_once_partial s1 h1 path to1 l s2 h2 to2 m s3 h3 :
  http_reachable s1 h1 -> sent_to path h1 = Some to1 ->
  orders_ok l -> http_run l s1 h1 = (s2, h2) -> sent_to path h2 = Some to2 -> to1 <> to2 ->
  orders_ok m -> http_run m s2 h2 = (s3, h3) -> sent_to path h3 = Some to2.
Proof.
  intros R1 T1 O1 H1 T2 Ne O2 H2. destruct (http_further _ _ _ _ _ R1 O1 H1) as [R2 E].
  apply (C170_same_address_partial s2 h2 path to2 m s3 h3 R2 T2 O2 H2). intros k K _.
  assert (N : ~ reserved path).
  { intros X. revert T1. unfold sent_to, http_request. unfold reserved in X. rewrite !elem_of_cons, elem_of_nil in X.
    destruct X as [->|[->|[->|[]]]]; simpl; discriminate. }
  rewrite (sent_to_spec _ _ _ R1 N) in T1. rewrite (sent_to_spec _ _ _ R2 N) in T2.
  pose proof (http_reachable_state _ _ R1) as Rs.
  assert (D : redirs (run (map fst l) s1) !! path <> redirs s1 !! path) by (rewrite <- E; congruence).
  destruct (redirection_cause_run _ _ _ Rs D) as (b & B1 & B2 & B3). rewrite <- E in B3.
  destruct (proj2 (C49_redirections_exact s1 path Rs) to1 T1) as (a & u & A1 & A2 & A3 & _).
  assert (A : complete s1 a) by (apply complete_iff; eauto).
  assert (A' : complete s2 a) by (rewrite E; apply complete_stays; assumption).
  destruct (spellings a b k path A3 B1 K) as [X|[X|X]]; subst; [contradiction|exact A'|exact B3].
Qed.
Print Assumptions C170_once_partial.

(** Refuted: the address does change, when the same file name is completed a second time without its slash. *)
Theorem C170_same_address_refuted :
  exists s h path to l s' h' to', http_reachable s h /\ sent_to path h = Some to /\ orders_ok l /\
    http_run l s h = (s', h') /\ sent_to path h' = Some to' /\ to <> to'.
Proof.
  set (x := http_run (plainly (upload_h "/a" [7] 0)) demo0 http_init).
  set (y := http_run (plainly (upload_h "a" [8] 3)) (fst x) (snd x)).
  exists (fst x), (snd x), "/a"%string, "https://jrthu-lqh.raw.icp0.io/a"%string, (plainly (upload_h "a" [8] 3)), (fst y), (snd y),
    "https://3tmwp-pyi.raw.icp0.io/a"%string.
  split; [apply plainly_reachable|]. split; [vm_compute; reflexivity|]. split; [apply plainly_ok|].
  split; [apply surjective_pairing|]. split; [vm_compute; reflexivity|discriminate].
Qed.
Print Assumptions C170_same_address_refuted.

(** A file is uploaded; then another one, a mint, an upgrade, and an attempt to upload the first again. *)
Example C170_example :
  let x := http_run (plainly (upload_h "/a" [7] 0)) demo0 http_init in
  let l := plainly (upload_h "b" [8] 3 ++ [(from_ admin 7, mint3); (from_ admin 9, OUpgrade); (from_ admin 10, OInitUpload "/a" 3)]) in
  let y := http_run l (fst x) (snd x) in
  http_reachable (fst x) (snd x) /\ orders_ok l /\
  sent_to "/a" (snd x) = Some "https://jrthu-lqh.raw.icp0.io/a"%string /\
  sent_to "/a" (snd y) = Some "https://jrthu-lqh.raw.icp0.io/a"%string /\
  sent_to "/b" (snd y) = Some "https://3tmwp-pyi.raw.icp0.io/b"%string /\
  (forall k, norm_path k = "/a"%string -> complete (fst y) k -> complete (fst x) k).
Proof.
  split; [apply plainly_reachable|]. split; [apply plainly_ok|]. splits; try (vm_compute; reflexivity).
  intros k K C. assert (X := proj2 (C49_norm_path k "/a")). rewrite K in X. specialize (X eq_refl).
  destruct X as [->|[->|X]].
  - vm_compute. reflexivity.
  - discriminate K.
  - injection X as <-. revert C. vm_compute. discriminate.
Qed.
