(** C130, C131: what the ledger records about uploads and what the storage canisters hold. *)
From Verif Require Import Base ModelPrincipal ModelState ModelIcrc7 ModelIcrc37 ModelManagement ModelLifecycle
  ModelQueries ModelStep ModelStorage ModelJoint ProofsItems ProofsManage ProofsMicro Spec ProofsCore ProofsLock ProofsUploads
  Scenario PropertiesUploads PropertiesMirror.

(** ** Storage canisters

    What is assumed of a storage canister (the crate is not part of the repository): [view st c p] is the state of file [p] at
    canister [c]; a request succeeds only in the state it is for and then has its effect; a refused one changes nothing. *)
Definition put (v : principal -> string -> option upload_state) (c : principal) (p : string) (x : option upload_state)
  (v' : principal -> string -> option upload_state) : Prop :=
  v' c p = x /\ forall c' p', (c', p') <> (c, p) -> v' c' p' = v c' p'.

Record storage_laws {ST} (srv : ST -> principal -> srequest -> ST * option serr)
  (view : ST -> principal -> string -> option upload_state) : Prop := {
  law_init : forall st c p st', srv st c (SqInit p) = (st', None) -> view st c p = None /\ put (view st) c p (Some UInit) (view st');
  law_store : forall st c p st', srv st c (SqStore p) = (st', None) ->
    (view st c p = Some UInit \/ view st c p = Some UInProgress) /\ put (view st) c p (Some UInProgress) (view st');
  law_finalize : forall st c p st', srv st c (SqFinalize p) = (st', None) ->
    view st c p = Some UInProgress /\ put (view st) c p (Some UFinalized) (view st');
  law_cancel : forall st c p st', srv st c (SqCancel p) = (st', None) ->
    view st c p <> None /\ put (view st) c p None (view st');
  law_refused : forall st c rq st' er, srv st c rq = (st', Some er) -> forall c' p', view st' c' p' = view st c' p'
}.

(** Storage canisters that obey: the states themselves. *)
Definition ref_srv (st : gmap (principal * string) upload_state) (c : principal) (rq : srequest) :
  gmap (principal * string) upload_state * option serr :=
  match rq with
  | SqInit p => match st !! (c, p) with None => (<[(c, p) := UInit]> st, None) | Some _ => (st, Some SFileExists) end
  | SqStore p =>
      match st !! (c, p) with
      | None => (st, Some SNotInitialized)
      | Some UFinalized => (st, Some SAlreadyFinalized)
      | Some _ => (<[(c, p) := UInProgress]> st, None)
      end
  | SqFinalize p =>
      match st !! (c, p) with
      | Some UInProgress => (<[(c, p) := UFinalized]> st, None)
      | Some UFinalized => (st, Some SAlreadyFinalized)
      | _ => (st, Some SNotStarted)
      end
  | SqCancel p => match st !! (c, p) with Some _ => (delete (c, p) st, None) | None => (st, Some SNotInitialized) end
  end.
Definition ref_view (st : gmap (principal * string) upload_state) (c : principal) (p : string) : option upload_state := st !! (c, p).

Lemma ref_laws : storage_laws ref_srv ref_view.
Proof.
  unfold ref_view.
  assert (I : forall (st : gmap (principal * string) upload_state) c p x,
    put (fun c p => st !! (c, p)) c p (Some x) (fun c' p' => <[(c, p) := x]> st !! (c', p'))).
  { intros st c p x. split; [apply lookup_insert|]. intros c' p' N0. apply lookup_insert_ne. congruence. }
  assert (D : forall (st : gmap (principal * string) upload_state) c p,
    put (fun c p => st !! (c, p)) c p None (fun c' p' => delete (c, p) st !! (c', p'))).
  { intros st c p. split; [apply lookup_delete|]. intros c' p' N0. apply lookup_delete_ne. congruence. }
  constructor.
  - intros st c p st'. simpl. destruct (st !! (c, p)) eqn:E; intros [= <-]. split; [reflexivity|apply I].
  - intros st c p st'. simpl. destruct (st !! (c, p)) as [[]|] eqn:E; intros [= <-]; (split; [auto|apply I]).
  - intros st c p st'. simpl. destruct (st !! (c, p)) as [[]|] eqn:E; intros [= <-]; (split; [auto|apply I]).
  - intros st c p st'. simpl. destruct (st !! (c, p)) eqn:E; intros [= <-]; (split; [discriminate|apply D]).
  - intros st c rq st' er. destruct rq as [p|p|p|p]; simpl; destruct (st !! (c, p)) as [[]|]; intros [= <- _]; reflexivity.
Qed.

(** ** Steps of the ledger *)
Lemma step_pend_keep e o s id p :
  up_inv s -> pend s !! id = Some p -> (forall id r, o <> OReply id r) -> o <> OUpgrade ->
  pend (fst (step e o s)) = pend s.
Proof.
  intros U Hp N0 N1.
  apply (step_rel (fun a => lock_inv a /\ pend a = pend s) (fun a b => pend b = pend a) e o s); auto; try congruence.
  - intros a b [La Pa] M. assert (R : pend b = pend a).
    { assert (G : guards a <> ∅). { destruct La as [_ L2]. rewrite <- Pa in Hp. rewrite (L2 _ _ Hp). apply non_empty_singleton_L. }
      micro_split M; try reflexivity; try congruence; exfalso; eapply N0; reflexivity. }
    split; [|exact R]. split; [eapply lock_inv_micro; eauto|congruence].
  - split; [apply (up_lock s U)|reflexivity].
Qed.

Lemma step_reply e id r s p :
  pend s !! id = Some p ->
  files (fst (step e (OReply id r) s)) = files (fst (continue (e_now e) p r s)) /\
  pend (fst (step e (OReply id r) s)) = delete id (pend s) /\
  subs (fst (step e (OReply id r) s)) = subs (fst (continue (e_now e) p r s)).
Proof.
  intros Hp. simpl. unfold resume. rewrite Hp. destruct (continue_frame (e_now e) p r s) as (F1 & F2 & F3).
  destruct (continue (e_now e) p r s) as [s1 a] eqn:C. simpl in *. rewrite F2.
  destruct a as [[[]|?|?]|]; simpl; auto.
Qed.

Lemma step_reply_none e id r s : pend s !! id = None -> fst (step e (OReply id r) s) = s.
Proof. intros Hp. simpl. unfold resume. rewrite Hp. reflexivity. Qed.

(** ** C130 *)

(** Ledger records and storage canisters say the same: a file is at the canister of its record, in the state of its record,
    and there is no other. *)
Definition agree (fs : gmap string upload) (v : principal -> string -> option upload_state) : Prop :=
  forall c p, v c p = match fs !! p with
                      | Some u => if decide (u_canister u = c) then Some (u_state u) else None
                      | None => None
                      end.

(** Every reply arrives, no continuation traps, the garbage collector cancels nothing, and no upgrade happens while a call
    waits. *)
Definition truthful (n : net) : Prop := forall c t, ReplyLost t ∉ n_fates n c.
Definition calm_event {ST} (x : jop) (j : joint ST) : Prop :=
  match x with
  | JMsg _ o => o = OUpgrade -> pend (j_ledger j) = ∅
  | JExec _ _ n => truthful n
  | JReply _ _ => True
  | JTrap _ _ | JGc _ _ _ _ => False
  end.
Fixpoint calm_events {ST} (srv : ST -> principal -> srequest -> ST * option serr) (l : list jop) (j : joint ST) : Prop :=
  match l with [] => True | x :: r => calm_event x j /\ calm_events srv r (fst (jstep srv x j)) end.

Section Laws.
Context {ST : Type} (srv : ST -> principal -> srequest -> ST * option serr) (view : ST -> principal -> string -> option upload_state).
Hypothesis laws : storage_laws srv view.

Definition same_view (st st' : ST) : Prop := forall c p, view st' c p = view st c p.

(** A truthful attempt either changes nothing or is one successful request. *)
Lemma retry_truthful c rq l t st st' x :
  (forall t, ReplyLost t ∉ l) -> retry srv c rq l t st = (st', x) ->
  (x = inl None /\ exists a, same_view st a /\ srv a c rq = (st', None)) \/ (x <> inl None /\ same_view st st').
Proof.
  revert t st. induction l as [|[|t1|t1] l IH]; intros t st T R; simpl in R.
  - injection R as <- <-. right. split; [discriminate|]. intros ? ?. reflexivity.
  - destruct (srv st c rq) as [st1 [er|]] eqn:S; injection R as <- <-.
    + right. split; [discriminate|]. intros ? ?. eapply law_refused; eauto.
    + left. split; [reflexivity|]. exists st. split; [intros ? ?; reflexivity|exact S].
  - apply (IH t1 st); [|exact R]. intros t2 H. apply (T t2). right. exact H.
  - exfalso. apply (T t1). left.
Qed.

Lemma sub_call_truthful n conv c rq st st' x :
  truthful n -> sub_call srv n conv c rq st = (st', x) ->
  (x = None /\ exists a, same_view st a /\ srv a c rq = (st', None)) \/ (x <> None /\ same_view st st').
Proof.
  intros T. unfold sub_call. destruct (n_installed n c).
  - destruct (retry srv c rq (n_fates n c) "" st) as [st1 y] eqn:R. intros [= <- <-].
    apply retry_truthful in R; [|apply T]. destruct R as [[-> (a & A1 & A2)]|[N0 A]]; [left; eauto|right].
    split; [|exact A]. destruct y as [[er|]|t]; congruence.
  - intros [= <- <-]. right. split; [discriminate|]. intros ? ?. reflexivity.
Qed.

Lemma same_view_trans a b c : same_view a b -> same_view b c -> same_view a c.
Proof. intros A B x y. rewrite B. apply A. Qed.

Lemma try_truthful n path size l st st' x :
  truthful n -> try_canisters srv n path size l st = (st', x) ->
  match x with
  | Some c => exists a, same_view st a /\ srv a c (SqInit path) = (st', None)
  | None => same_view st st'
  end.
Proof.
  intros T. revert st. induction l as [|c l IH]; intros st; simpl.
  - intros [= <- <-] ? ?. reflexivity.
  - destruct (n_size n c) as [k|]; [|apply IH]. destruct (add128 k size <=? max_storage_size); [|apply IH].
    destruct (sub_call _ _ _ _ _ _) as [st1 [er|]] eqn:S; apply sub_call_truthful in S; try exact T.
    + destruct S as [[? _]|[_ S]]; [discriminate|]. intros R. specialize (IH _ R). destruct x as [c1|].
      * destruct IH as (a & A1 & A2). exists a. split; [eapply same_view_trans; eauto|exact A2].
      * eapply same_view_trans; eauto.
    + destruct S as [[_ S]|[? _]]; [|congruence]. intros [= <- <-]. exact S.
Qed.

Lemma manager_truthful n path size l st st' r :
  truthful n -> manager_init srv n path size l st = (st', r) ->
  match r with
  | RInitOk c => exists a, same_view st a /\ srv a c (SqInit path) = (st', None)
  | RInitErr _ _ => same_view st st'
  | _ => False
  end.
Proof.
  intros T. unfold manager_init. destruct (try_canisters _ _ _ _ _ _) as [st1 [c|]] eqn:X; apply try_truthful in X; try exact T.
  - intros [= <- <-]. exact X.
  - destruct (n_create n) as [c|t].
    + destruct (sub_call _ _ _ _ _ _) as [st2 [er|]] eqn:S; apply sub_call_truthful in S; try exact T; intros [= <- <-].
      * destruct S as [[? _]|[_ S]]; [discriminate|]. eapply same_view_trans; eauto.
      * destruct S as [[_ (a & A1 & A2)]|[? _]]; [|congruence]. exists a. split; [eapply same_view_trans; eauto|exact A2].
    + intros [= <- <-]. exact X.
Qed.

Lemma agree_same fs st st' : same_view st st' -> agree fs (view st) -> agree fs (view st').
Proof. intros E A c p. rewrite E. apply A. Qed.

Lemma agree_insert fs v v' p u c x :
  agree fs v -> (forall u0, fs !! p = Some u0 -> u_canister u0 = c) -> u_canister u = c -> u_state u = x ->
  put v c p (Some x) v' -> agree (<[p := u]> fs) v'.
Proof.
  intros A H Hc Hx [P1 P2] c' p'. destruct (decide (p' = p)) as [->|N0].
  - rewrite lookup_insert. destruct (decide (u_canister u = c')) as [E|E]; [congruence|].
    rewrite P2 by congruence. rewrite A. destruct (fs !! p) as [u0|] eqn:F; [|reflexivity].
    specialize (H _ eq_refl). destruct (decide _); [congruence|reflexivity].
  - rewrite lookup_insert_ne by congruence. rewrite P2 by congruence. apply A.
Qed.

Lemma agree_delete fs v v' p u :
  agree fs v -> fs !! p = Some u -> put v (u_canister u) p None v' -> agree (delete p fs) v'.
Proof.
  intros A H [P1 P2] c' p'. destruct (decide (p' = p)) as [->|N0].
  - rewrite lookup_delete. destruct (decide (u_canister u = c')) as [E|E]; [congruence|].
    rewrite P2 by congruence. rewrite A, H. destruct (decide _); [congruence|reflexivity].
  - rewrite lookup_delete_ne by congruence. rewrite P2 by congruence. apply A.
Qed.

Lemma put_same st a v' c p x : same_view st a -> put (view a) c p x v' -> put (view st) c p x v'.
Proof. intros E [P1 P2]. split; [exact P1|]. intros c' p' N0. rewrite P2 by exact N0. apply E. Qed.

(** Carrying out a waiting call keeps the agreement up to the continuation. *)
Lemma exec_agree n size p s st st' r :
  truthful n -> up_inv s -> pend_ok s p -> agree (files s) (view st) -> exec srv n size p (files s) st = (st', r) ->
  forall now, agree (files (fst (continue now p r s))) (view st').
Proof.
  intros T U OK A X now. destruct p as [c path snap|c key i cn path|c key i cn path|c key]; simpl in X, OK.
  - apply manager_truthful in X; [|exact T]. destruct OK as [OK _]. destruct r; try contradiction; simpl.
    + destruct X as (a & A1 & A2). apply (law_init _ _ laws) in A2. destruct A2 as [_ A2].
      eapply agree_insert; [exact A| |reflexivity|reflexivity|eapply put_same; eauto]. intros u0. rewrite OK. discriminate.
    + eapply agree_same; eauto.
  - destruct OK as (u & F & _ & -> & -> & ->). destruct (sub_call _ _ _ _ _ _) as [st1 x] eqn:S. injection X as <- <-.
    apply sub_call_truthful in S; [|exact T]. destruct S as [[-> (a & A1 & A2)]|[N0 S]]; simpl.
    + apply (law_store _ _ laws) in A2. destruct A2 as [_ A2].
      eapply agree_insert; [exact A| |reflexivity|reflexivity|eapply put_same; eauto]. simpl. intros u0 F0. congruence.
    + destruct x; [|congruence]. eapply agree_same; eauto.
  - destruct OK as (u & F & _ & -> & -> & ->). destruct (sub_call _ _ _ _ _ _) as [st1 x] eqn:S. injection X as <- <-.
    apply sub_call_truthful in S; [|exact T]. destruct S as [[-> (a & A1 & A2)]|[N0 S]]; simpl.
    + apply (law_finalize _ _ laws) in A2. destruct A2 as [_ A2].
      eapply agree_insert; [exact A| |reflexivity|reflexivity|eapply put_same; eauto]. simpl. intros u0 F0. congruence.
    + destruct x; [|congruence]. eapply agree_same; eauto.
  - destruct OK as (u & F & _). rewrite F in X. destruct (sub_call _ _ _ _ _ _) as [st1 x] eqn:S. injection X as <- <-.
    apply sub_call_truthful in S; [|exact T]. destruct S as [[-> (a & A1 & A2)]|[N0 S]]; simpl.
    + apply (law_cancel _ _ laws) in A2. destruct A2 as [_ A2].
      eapply agree_delete; [exact A|exact F|eapply put_same; eauto].
    + destruct x; [|congruence]. eapply agree_same; eauto.
Qed.

Lemma continue_files now p r s s' : files s' = files s -> files (fst (continue now p r s')) = files (fst (continue now p r s)).
Proof. intros F. destruct p, r; simpl; rewrite ?F; reflexivity. Qed.

(** Invariant of calm executions. *)
Record joint_inv (j : joint ST) : Prop := {
  ji_up : up_inv (j_ledger j);
  ji_done : forall id r, j_done j !! id = Some r -> exists p, pend (j_ledger j) !! id = Some p /\
    forall now, agree (files (fst (continue now p r (j_ledger j)))) (view (j_store j));
  ji_rest : j_done j = ∅ -> agree (files (j_ledger j)) (view (j_store j))
}.

Lemma step_up_inv e o s : up_inv s -> up_inv (fst (step e o s)).
Proof. intros U. apply (run_up_inv [(e, o)] s) in U. exact U. Qed.

Lemma jstep_inv x j : calm_event x j -> joint_inv j -> joint_inv (fst (jstep srv x j)).
Proof.
  intros C J. destruct j as [s st d]. destruct J as [J1 J2 J3]. simpl in J1, J2, J3.
  assert (Dn : forall id r, d !! id = Some r -> d = {[id := r]}).
  { intros id r H. destruct (J2 _ _ H) as (p & Hp & _).
    apply map_eq. intros id'. destruct (decide (id' = id)) as [->|N0]; [rewrite lookup_singleton; exact H|].
    rewrite lookup_singleton_ne by congruence. destruct (d !! id') as [r'|] eqn:H'; [|reflexivity].
    destruct (J2 _ _ H') as (p' & Hp' & _). destruct (up_lock s J1) as [L _].
    rewrite (size_le_1 _ _ _ L Hp) in Hp'. rewrite lookup_singleton_ne in Hp' by congruence. discriminate. }
  destruct x as [e o|id size n|e id|e id|now path u f]; simpl in C; try contradiction.
  - (* message *)
    assert (G : (forall id r, o <> OReply id r) ->
      joint_inv (mkJ (fst (step e o s)) st (match o with OUpgrade => ∅ | _ => d end))).
    { intros N0. destruct (step_files e o s J1 N0) as (F & _ & _). constructor; simpl.
      - apply step_up_inv. exact J1.
      - intros id r H. assert (N1 : o <> OUpgrade) by (intros ->; rewrite lookup_empty in H; discriminate).
        assert (H1 : d !! id = Some r) by (destruct o; try exact H; congruence). clear H.
        destruct (J2 _ _ H1) as (p & Hp & A). exists p. rewrite (step_pend_keep e o s id p J1 Hp N0 N1). split; [exact Hp|].
        intros now. rewrite (continue_files now p r s _ F). apply A.
      - intros H. rewrite F. apply J3. destruct o; try exact H.
        apply map_empty. intros id. destruct (d !! id) as [r|] eqn:E; [|reflexivity].
        destruct (J2 _ _ E) as (p & Hp & _). rewrite (C eq_refl), lookup_empty in Hp. discriminate. }
    assert (K : forall id r, o = OReply id r -> joint_inv (fst (jstep srv (JMsg e o) (mkJ s st d)))).
    { intros id r ->. constructor; assumption. }
    destruct o; try (eapply K; reflexivity);
      (assert (G' := G ltac:(discriminate)); clear G K; unfold jstep;
       match goal with |- context[step ?a ?b ?c] => destruct (step a b c) as [s' an] end; exact G').
  - (* requests carried out *)
    simpl. destruct (pend s !! id) as [p|] eqn:Hp; [|constructor; assumption].
    destruct (d !! id) as [r0|] eqn:Hd; [constructor; assumption|].
    destruct (exec srv n size p (files s) st) as [st' r] eqn:X. simpl.
    assert (D0 : d = ∅).
    { apply map_empty. intros id'. destruct (d !! id') as [r'|] eqn:E; [|reflexivity].
      destruct (J2 _ _ E) as (p' & Hp' & _). destruct (up_lock s J1) as [L _].
      rewrite (size_le_1 _ _ _ L Hp) in Hp'. apply lookup_singleton_Some in Hp'. destruct Hp' as [<- _]. congruence. }
    constructor; simpl; [exact J1| |intros H; apply insert_non_empty in H; contradiction].
    intros id' r' H. rewrite D0, insert_empty in H. apply lookup_singleton_Some in H. destruct H as [<- <-].
    exists p. split; [exact Hp|]. eapply exec_agree; eauto. eapply (up_pend s J1); eauto.
  - (* reply *)
    unfold jstep. destruct (d !! id) as [r|] eqn:Hd; [|constructor; assumption].
    destruct (J2 _ _ Hd) as (p & Hp & A). destruct (step_reply e id r s p Hp) as (F & P & _).
    pose proof (step_up_inv e (OReply id r) s J1) as U'.
    destruct (step e (OReply id r) s) as [s' an]. simpl fst in *.
    assert (D0 : delete id d = ∅) by (rewrite (Dn _ _ Hd); apply delete_singleton).
    constructor; simpl; [exact U'| |].
    + intros id' r' H. rewrite D0, lookup_empty in H. discriminate.
    + intros _. rewrite F. apply A.
Qed.

Lemma jrun_inv l : forall j, calm_events srv l j -> joint_inv j -> joint_inv (jrun srv l j).
Proof. induction l as [|x l IH]; intros j; [auto|]. intros [C1 C2] J. apply IH; [exact C2|]. apply jstep_inv; assumption. Qed.


(** ** Uploads out of step *)

(** The waiting call is about file [p]. *)
Definition about (p : string) (q : pending) : Prop :=
  match q with PInit _ k _ => k = p | PStore _ k _ _ _ => k = p | PFinalize _ k _ _ _ => k = p | PCancel _ k => k = p end.

(** The event has nothing to do with cancelling [p]. *)
Definition no_cancel (p : string) (x : jop) : Prop :=
  match x with JMsg _ (OCancel q) => q <> p | JGc _ q _ _ => q <> p | _ => True end.

(** The file is unfinished in the ledger, but the storage canister has dropped it, or has it finalized and is not asked to
    cancel it; replies under way do not report a success about it. *)
Record off (p : string) (u : upload) (x : option upload_state) (j : joint ST) : Prop := {
  off_up : up_inv (j_ledger j);
  off_file : files (j_ledger j) !! p = Some u;
  off_state : u_state u <> UFinalized;
  off_view : view (j_store j) (u_canister u) p = x;
  off_kind : x = None \/ (x = Some UFinalized /\ forall id c, pend (j_ledger j) !! id <> Some (PCancel c p));
  off_done : forall id r, j_done j !! id = Some r -> exists q, pend (j_ledger j) !! id = Some q /\ (about p q -> r <> ROk)
}.

Definition rq_path (rq : srequest) : string :=
  match rq with SqInit p | SqStore p | SqFinalize p | SqCancel p => p end.

(** A request touches its own file only. *)
Lemma srv_other st c rq c' p' : (c', p') <> (c, rq_path rq) -> view (fst (srv st c rq)) c' p' = view st c' p'.
Proof.
  intros N0. destruct (srv st c rq) as [st' [er|]] eqn:S; simpl; [eapply law_refused; eauto|].
  destruct rq as [p|p|p|p]; simpl in N0;
    [apply (law_init _ _ laws) in S|apply (law_store _ _ laws) in S|apply (law_finalize _ _ laws) in S|apply (law_cancel _ _ laws) in S];
    destruct S as [_ [_ S]]; apply S; exact N0.
Qed.

(** A request is refused if the file is in a state it is not for. *)
Lemma srv_refused st c rq :
  match rq with
  | SqInit _ => False
  | SqStore p | SqFinalize p => view st c p = None \/ view st c p = Some UFinalized
  | SqCancel p => view st c p = None
  end ->
  exists er, snd (srv st c rq) = Some er /\ same_view st (fst (srv st c rq)).
Proof.
  intros H. destruct (srv st c rq) as [st' [er|]] eqn:S; simpl.
  - exists er. split; [reflexivity|]. intros c' p'. eapply law_refused; eauto.
  - exfalso. destruct rq as [p|p|p|p]; [contradiction|apply (law_store _ _ laws) in S|apply (law_finalize _ _ laws) in S|apply (law_cancel _ _ laws) in S];
    destruct S as [S _]; intuition congruence.
Qed.

Lemma retry_keeps c rq c' p' l : forall t st,
  (c', p') <> (c, rq_path rq) -> view (fst (retry srv c rq l t st)) c' p' = view st c' p'.
Proof.
  induction l as [|[|t1|t1] l IH]; intros t st N0; simpl.
  - reflexivity.
  - pose proof (srv_other st c rq c' p' N0) as X. destruct (srv st c rq). exact X.
  - apply IH. exact N0.
  - rewrite IH by exact N0. apply srv_other. exact N0.
Qed.

Lemma sub_call_keeps n conv c rq c' p' st :
  (c', p') <> (c, rq_path rq) -> view (fst (sub_call srv n conv c rq st)) c' p' = view st c' p'.
Proof.
  intros N0. unfold sub_call. destruct (n_installed n c); [|reflexivity].
  pose proof (retry_keeps c rq c' p' (n_fates n c) "" st N0) as X. destruct (retry _ _ _ _ _ _). exact X.
Qed.

Lemma try_keeps n path size c' p' l : forall st,
  p' <> path -> view (fst (try_canisters srv n path size l st)) c' p' = view st c' p'.
Proof.
  induction l as [|c l IH]; intros st N0; simpl; [reflexivity|].
  destruct (n_size n c) as [k|]; [|apply IH; exact N0]. destruct (add128 k size <=? max_storage_size); [|apply IH; exact N0].
  pose proof (sub_call_keeps n (init_err n) c (SqInit path) c' p' st ltac:(simpl; congruence)) as X.
  destruct (sub_call _ _ _ _ _ _) as [st1 [er|]]; [|exact X]. rewrite IH by exact N0. exact X.
Qed.

Lemma manager_keeps n path size l c' p' st :
  p' <> path -> view (fst (manager_init srv n path size l st)) c' p' = view st c' p'.
Proof.
  intros N0. unfold manager_init. pose proof (try_keeps n path size c' p' (filter (fun c => n_installed n c = true) l) st N0) as X.
  destruct (try_canisters _ _ _ _ _ _) as [st1 [c|]]; [exact X|]. destruct (n_create n) as [c|t]; [|exact X].
  pose proof (sub_call_keeps n (init_err n) c (SqInit path) c' p' st1 ltac:(simpl; congruence)) as Y.
  destruct (sub_call _ _ _ _ _ _) as [st2 [er|]]; simpl in *; congruence.
Qed.

Lemma retry_refused c rq l : forall t st,
  match rq with
  | SqInit _ => False
  | SqStore p | SqFinalize p => view st c p = None \/ view st c p = Some UFinalized
  | SqCancel p => view st c p = None
  end ->
  same_view st (fst (retry srv c rq l t st)) /\ snd (retry srv c rq l t st) <> inl None.
Proof.
  induction l as [|[|t1|t1] l IH]; intros t st H; simpl.
  - split; [intros ? ?; reflexivity|discriminate].
  - destruct (srv_refused st c rq H) as (er & E1 & E2). destruct (srv st c rq) as [st' y]. simpl in *. subst y.
    split; [exact E2|discriminate].
  - apply IH. exact H.
  - destruct (srv_refused st c rq H) as (er & _ & E2).
    assert (H' : match rq with
      | SqInit _ => False
      | SqStore p | SqFinalize p => view (fst (srv st c rq)) c p = None \/ view (fst (srv st c rq)) c p = Some UFinalized
      | SqCancel p => view (fst (srv st c rq)) c p = None end).
    { destruct rq as [p|p|p|p]; [contradiction|..]; rewrite E2; exact H. }
    destruct (IH t1 _ H') as [I1 I2]. split; [|exact I2]. eapply same_view_trans; eauto.
Qed.

Lemma sub_call_refused n conv c rq st :
  match rq with
  | SqInit _ => False
  | SqStore p | SqFinalize p => view st c p = None \/ view st c p = Some UFinalized
  | SqCancel p => view st c p = None
  end ->
  same_view st (fst (sub_call srv n conv c rq st)) /\ snd (sub_call srv n conv c rq st) <> None.
Proof.
  intros H. unfold sub_call. destruct (n_installed n c); [|split; [intros ? ?; reflexivity|discriminate]].
  destruct (retry_refused c rq (n_fates n c) "" st H) as [R1 R2]. destruct (retry _ _ _ _ _ _) as [st' y]. simpl in *.
  split; [exact R1|]. destruct y as [[er|]|t]; congruence.
Qed.

Lemma as_reply_ok y : y <> None -> as_reply y <> ROk.
Proof. destruct y; [discriminate|congruence]. Qed.

Lemma exec_off p u x n size q s st :
  up_inv s -> files s !! p = Some u -> view st (u_canister u) p = x ->
  (x = None \/ (x = Some UFinalized /\ forall c, q <> PCancel c p)) -> pend_ok s q ->
  view (fst (exec srv n size q (files s) st)) (u_canister u) p = x /\
  (about p q -> snd (exec srv n size q (files s) st) <> ROk).
Proof.
  intros U F V K OK. destruct q as [c path snap|c key i cn path|c key i cn path|c key]; simpl in OK.
  - destruct OK as [OK _]. assert (N0 : p <> path) by congruence. split; [|simpl; congruence].
    simpl exec. rewrite manager_keeps by exact N0. exact V.
  - destruct OK as (u0 & F0 & _ & _ & -> & _). simpl. destruct (decide (key = p)) as [->|N0].
    + rewrite F in F0. injection F0 as <-.
      destruct (sub_call_refused n (store_err n) (u_canister u) (SqStore p) st ltac:(destruct K as [K|[K _]]; rewrite V, K; auto)) as [R1 R2].
      destruct (sub_call _ _ _ _ _ _) as [st' y]. simpl in *. rewrite R1. split; [exact V|]. intros _. apply as_reply_ok. exact R2.
    + pose proof (sub_call_keeps n (store_err n) (u_canister u0) (SqStore key) (u_canister u) p st ltac:(simpl; congruence)) as X.
      destruct (sub_call _ _ _ _ _ _) as [st' y]. simpl in *. split; [congruence|contradiction].
  - destruct OK as (u0 & F0 & _ & _ & -> & _). simpl. destruct (decide (key = p)) as [->|N0].
    + rewrite F in F0. injection F0 as <-.
      destruct (sub_call_refused n (finalize_err n) (u_canister u) (SqFinalize p) st ltac:(destruct K as [K|[K _]]; rewrite V, K; auto)) as [R1 R2].
      destruct (sub_call _ _ _ _ _ _) as [st' y]. simpl in *. rewrite R1. split; [exact V|]. intros _. apply as_reply_ok. exact R2.
    + pose proof (sub_call_keeps n (finalize_err n) (u_canister u0) (SqFinalize key) (u_canister u) p st ltac:(simpl; congruence)) as X.
      destruct (sub_call _ _ _ _ _ _) as [st' y]. simpl in *. split; [congruence|contradiction].
  - destruct OK as (u0 & F0 & _). simpl. rewrite F0. destruct (decide (key = p)) as [->|N0].
    + rewrite F in F0. injection F0 as <-. destruct K as [K|[_ K]]; [|destruct (K c eq_refl)].
      destruct (sub_call_refused n (cancel_err n) (u_canister u) (SqCancel p) st ltac:(simpl; congruence)) as [R1 R2].
      destruct (sub_call _ _ _ _ _ _) as [st' y]. simpl in *. rewrite R1. split; [exact V|]. intros _. apply as_reply_ok. exact R2.
    + pose proof (sub_call_keeps n (cancel_err n) (u_canister u0) (SqCancel key) (u_canister u) p st ltac:(simpl; congruence)) as X.
      destruct (sub_call _ _ _ _ _ _) as [st' y]. simpl in *. split; [congruence|contradiction].
Qed.

Lemma continue_other now q r s p :
  (about p q -> r <> ROk) -> ~ (exists c snap, q = PInit c p snap) ->
  files (fst (continue now q r s)) !! p = files s !! p.
Proof.
  intros H NI. destruct q as [c path snap|c key i cn path|c key i cn path|c key], r; simpl in *; try reflexivity.
  - apply lookup_insert_ne. intros ->. apply NI. eauto.
  - apply lookup_insert_ne. intros ->. apply H; reflexivity.
  - apply lookup_insert_ne. intros ->. apply H; reflexivity.
  - apply lookup_delete_ne. intros ->. apply H; reflexivity.
Qed.

Lemma reply_off p u x e id r s st d q :
  off p u x (mkJ s st d) -> pend s !! id = Some q -> (about p q -> r <> ROk) ->
  off p u x (mkJ (fst (step e (OReply id r) s)) st (delete id d)).
Proof.
  intros [J1 J2 J3 J4 J5 J6] Hp A. simpl in J1, J2, J4, J5, J6. destruct (step_reply e id r s q Hp) as (F & P & _).
  pose proof (up_pend s J1 _ _ Hp) as OK.
  pose proof (step_up_inv e (OReply id r) s J1) as U'.
  remember (fst (step e (OReply id r) s)) as s' eqn:Es. clear Es.
  constructor; simpl.
  - exact U'.
  - rewrite F, continue_other; [exact J2|exact A|]. intros (c & snap & ->). destruct OK as [OK _]. congruence.
  - exact J3.
  - exact J4.
  - destruct J5 as [J5|[J5 J5']]; [left; exact J5|right]. split; [exact J5|]. intros id' c. rewrite P.
    intros X. apply lookup_delete_Some in X. destruct X as [_ X]. eapply J5'; eauto.
  - intros id' r' H. apply lookup_delete_Some in H. destruct H as [N0 H]. rewrite P.
    rewrite lookup_delete_ne by exact N0. apply J6. exact H.
Qed.

Lemma jstep_off p u x ev j :
  (x <> None -> no_cancel p ev) -> off p u x j -> off p u x (fst (jstep srv ev j)).
Proof.
  intros NC J. destruct j as [s st d]. pose proof J as J0. destruct J as [J1 J2 J3 J4 J5 J6]. simpl in J1, J2, J4, J5, J6.
  destruct ev as [e o|id size n|e id|e id|now path u' f].
  - (* message *)
    assert (G : (forall id r, o <> OReply id r) ->
      off p u x (mkJ (fst (step e o s)) st (match o with OUpgrade => ∅ | _ => d end))).
    { intros N0. destruct (step_files e o s J1 N0) as (F & _ & _). pose proof (step_up_inv e o s J1) as U'.
      destruct (step e o s) as [s' an] eqn:S. simpl in F, U'. constructor; simpl.
      - exact U'.
      - rewrite F. exact J2.
      - exact J3.
      - exact J4.
      - destruct J5 as [J5|[J5 J5']]; [left; exact J5|right]. split; [exact J5|]. intros id c X.
        destruct (step_pend_origin e o s s' an id _ S X) as [Y|(W & _)];
          [eapply J5'; eauto|]. destruct o; try contradiction. simpl in W. subst. apply NC; [congruence|reflexivity].
      - intros id r H. assert (N1 : o <> OUpgrade) by (intros ->; rewrite lookup_empty in H; discriminate).
        assert (H1 : d !! id = Some r) by (destruct o; try exact H; congruence). clear H.
        destruct (J6 _ _ H1) as (q & Hq & A). exists q.
        pose proof (step_pend_keep e o s id q J1 Hq N0 N1) as Y. rewrite S in Y. simpl in Y. rewrite Y. auto. }
    assert (K : forall id r, o = OReply id r -> off p u x (fst (jstep srv (JMsg e o) (mkJ s st d)))).
    { intros id r ->. exact J0. }
    destruct o; try (eapply K; reflexivity);
      (assert (G' := G ltac:(discriminate)); clear G K; unfold jstep;
       match goal with |- context[step ?a ?b ?c] => destruct (step a b c) as [s' an] end; exact G').
  - (* requests carried out *)
    simpl. destruct (pend s !! id) as [q|] eqn:Hp; [|exact J0].
    destruct (d !! id) as [r0|] eqn:Hd; [exact J0|].
    assert (KK : x = None \/ (x = Some UFinalized /\ forall c, q <> PCancel c p)).
    { destruct J5 as [J5|[J5 J5']]; [left; exact J5|right]. split; [exact J5|]. intros c ->. eapply J5'; eauto. }
    destruct (exec_off p u x n size q s st J1 J2 J4 KK (up_pend s J1 _ _ Hp)) as [V A].
    destruct (exec srv n size q (files s) st) as [st' r]. simpl in V, A.
    constructor; simpl; auto. intros id' r' H. apply lookup_insert_Some in H. destruct H as [[<- <-]|[_ H]]; [eauto|auto].
  - (* reply *)
    unfold jstep. destruct (d !! id) as [r|] eqn:Hd; [|exact J0].
    destruct (J6 _ _ Hd) as (q & Hp & A). pose proof (reply_off p u x e id r s st d q J0 Hp A) as X.
    destruct (step e (OReply id r) s). exact X.
  - (* trap *)
    unfold jstep. destruct (pend s !! id) as [q|] eqn:Hp.
    + pose proof (reply_off p u x e id RTrap s st d q J0 Hp ltac:(discriminate)) as X. destruct (step e (OReply id RTrap) s). exact X.
    + pose proof (step_reply_none e id RTrap s Hp) as X. destruct (step e (OReply id RTrap) s) as [s' a]. simpl in X. subst s'. simpl.
      constructor; simpl; auto. intros id' r' H. apply lookup_delete_Some in H. destruct H as [_ H]. auto.
  - (* garbage collector *)
    simpl. destruct (_ <? _); [|exact J0].
    assert (V : view (fst (srv st (u_canister u') (SqCancel path))) (u_canister u) p = x).
    { destruct (decide ((u_canister u, p) = (u_canister u', path))) as [E|E].
      - injection E as E1 E2. subst path. destruct J5 as [J5|[J5 _]].
        + destruct (srv_refused st (u_canister u') (SqCancel p) ltac:(simpl; congruence)) as (er & _ & R). rewrite R. exact J4.
        + exfalso. apply NC; [congruence|reflexivity].
      - rewrite srv_other by exact E. exact J4. }
    destruct f; simpl; [|exact J0|]; constructor; simpl; auto.
Qed.

Lemma jrun_off p u x l : forall j, (x <> None -> Forall (no_cancel p) l) -> off p u x j -> off p u x (jrun srv l j).
Proof.
  induction l as [|ev l IH]; intros j NC J; [exact J|]. apply IH.
  - intros H. specialize (NC H). inversion NC. assumption.
  - apply jstep_off; [|exact J]. intros H. specialize (NC H). inversion NC. assumption.
Qed.

End Laws.

(** Partial: if every reply arrives, no continuation traps, no upgrade happens while a call waits and the garbage collector
    cancels nothing, then whenever no call waits the ledger and the storage canisters agree about every upload, no matter
    which calls are made, how often attempts fail and which requests the storage canisters refuse. *)
Theorem C130_agree_partial {ST} (srv : ST -> principal -> srequest -> ST * option serr) view l s st :
  storage_laws srv view -> reachable s -> pend s = ∅ -> agree (files s) (view st) ->
  calm_events srv l (mkJ s st ∅) ->
  let j := jrun srv l (mkJ s st ∅) in
  pend (j_ledger j) = ∅ -> agree (files (j_ledger j)) (view (j_store j)).
Proof.
  intros L R P A C j Pj.
  assert (J : joint_inv view j).
  { apply (jrun_inv srv view L); [exact C|]. constructor; simpl.
    - apply reachable_up_inv. exact R.
    - intros id r H. rewrite lookup_empty in H. discriminate.
    - intros _. exact A. }
  apply (ji_rest view j J). apply map_empty. intros id. destruct (j_done j !! id) as [r|] eqn:E; [|reflexivity].
  destruct (ji_done view j J _ _ E) as (p & Hp & _). rewrite Pj, lookup_empty in Hp. discriminate.
Qed.
Print Assumptions C130_agree_partial.

(** A storage canister, a network on which the first attempt of every call fails, and one on which the reply of the first
    attempt is lost. *)
Definition shelf : principal := [7].
Definition busy_net : net :=
  mkNet (fun _ => true) (fun _ => Some 0) (fun _ => [NotSent "busy"; Delivered]) (inl shelf) (fun _ => "") (fun _ => "").
Definition lossy_net : net :=
  mkNet (fun _ => true) (fun _ => Some 0) (fun _ => [ReplyLost "timeout"; Delivered]) (inl shelf) (fun _ => "") (fun _ => "").

(** One upload call: the message, its requests, the reply. *)
Definition three (e : env) (o : op) (id : N) (n : net) : list jop := [JMsg e o; JExec id 10 n; JReply e id].
Definition begun : list jop :=
  three (from_ admin 0) (OInitUpload "a.png" 10) 0 busy_net ++ three (from_ admin 1) (OStoreChunk "a.png") 1 busy_net.
Definition start : joint (gmap (principal * string) upload_state) := mkJ demo0 ∅ ∅.
Definition whole : list jop :=
  begun ++ three (from_ admin 2) (OFinalize "a.png") 2 busy_net ++
  three (from_ admin 3) (OInitUpload "b.png" 10) 3 busy_net ++ three (from_ admin 4) (OCancel "b.png") 4 busy_net.

Lemma demo0_agree : agree (files demo0) (ref_view ∅).
Proof. intros c p. assert (F : files demo0 = ∅) by reflexivity. rewrite F. reflexivity. Qed.

Example C130_example :
  storage_laws ref_srv ref_view /\ reachable demo0 /\ pend demo0 = ∅ /\ agree (files demo0) (ref_view ∅) /\
  calm_events ref_srv whole start /\
  pend (j_ledger (jrun ref_srv whole start)) = ∅ /\
  ref_view (j_store (jrun ref_srv whole start)) shelf "a.png" = Some UFinalized /\
  ref_view (j_store (jrun ref_srv whole start)) shelf "b.png" = None /\
  map_to_list (files (j_ledger (jrun ref_srv whole start))) = [("a.png"%string, mkUp (t0 + 0) UFinalized shelf "a.png")].
Proof.
  assert (T : truthful busy_net).
  { intros c t H. apply elem_of_cons in H. destruct H as [H|H]; [discriminate|]. apply elem_of_list_singleton in H. discriminate. }
  split; [apply ref_laws|]. split; [apply (demo_reachable [])|]. split; [reflexivity|]. split; [apply demo0_agree|].
  split; [|split; [apply map_size_empty_inv; vm_compute; reflexivity|vm_compute; repeat split; reflexivity]].
  unfold whole, begun, three. cbn [app calm_events calm_event].
  repeat (split; [first [discriminate|exact T|exact Logic.I]|]). exact Logic.I.
Qed.

(** Refuted: the agreement is lost when the reply of a request is lost (the attempt is repeated and refused), when a
    continuation traps, when the canister is upgraded while a call waits, and when the garbage collector cancels an upload. *)
Definition lost_reply : list jop := begun ++ three (from_ admin 2) (OFinalize "a.png") 2 lossy_net.
Definition trapped : list jop :=
  begun ++ [JMsg (from_ admin 2) (OFinalize "a.png"); JExec 2 10 busy_net; JTrap (from_ admin 2) 2].
Definition upgraded : list jop :=
  begun ++ [JMsg (from_ admin 2) (OFinalize "a.png"); JExec 2 10 busy_net; JMsg (from_ admin 3) OUpgrade].
Definition collected : list jop := begun ++ [JGc (t0 + 5) "a.png" (mkUp t0 UInProgress shelf "a.png") Delivered].

Theorem C130_agree_refuted l :
  l ∈ [lost_reply; trapped; upgraded; collected] ->
  pend (j_ledger (jrun ref_srv l start)) = ∅ /\
  ~ agree (files (j_ledger (jrun ref_srv l start))) (ref_view (j_store (jrun ref_srv l start))).
Proof.
  assert (G : forall l, pend (j_ledger (jrun ref_srv l start)) = ∅ ->
    option_map u_state (files (j_ledger (jrun ref_srv l start)) !! "a.png"%string) = Some UInProgress ->
    ref_view (j_store (jrun ref_srv l start)) shelf "a.png" <> Some UInProgress ->
    option_map u_canister (files (j_ledger (jrun ref_srv l start)) !! "a.png"%string) = Some shelf ->
    pend (j_ledger (jrun ref_srv l start)) = ∅ /\
    ~ agree (files (j_ledger (jrun ref_srv l start))) (ref_view (j_store (jrun ref_srv l start)))).
  { clear l. intros l P A B C. split; [exact P|]. intros H. specialize (H shelf "a.png"%string).
    destruct (files _ !! _) as [u|]; [|discriminate]. simpl in A, C. injection A as A. injection C as C.
    rewrite C, A in H. destruct (decide _); congruence. }
  intros H. repeat (apply elem_of_cons in H; destruct H as [->|H]); [..|apply elem_of_nil in H; contradiction];
    (apply G; [apply map_size_empty_inv; vm_compute; reflexivity|vm_compute; reflexivity|vm_compute; discriminate|vm_compute; reflexivity]).
Qed.
Print Assumptions C130_agree_refuted.

(** ** C131 *)

(** An unfinished upload the storage canister no longer has stays in the ledger for ever, whatever happens: no call about it
    succeeds, and the path is refused for a new upload. *)
Theorem C131_dropped_for_ever {ST} (srv : ST -> principal -> srequest -> ST * option serr) view l s st p u :
  storage_laws srv view -> reachable s -> files s !! p = Some u -> u_state u <> UFinalized -> view st (u_canister u) p = None ->
  let j := jrun srv l (mkJ s st ∅) in
  files (j_ledger j) !! p = Some u /\
  (forall e id q, pend (j_ledger j) !! id = Some q -> about p q -> snd (jstep srv (JReply e id) j) <> Some AOk) /\
  (forall e size, snd (step e (OInitUpload p size) (j_ledger j)) <> APending /\
                  snd (step e (OInitUpload p size) (j_ledger j)) <> AOk).
Proof.
  intros L R F N0 V j.
  assert (J : off view p u None j).
  { apply (jrun_off srv view L); [congruence|]. constructor; simpl; auto.
    - apply reachable_up_inv. exact R.
    - intros id r H. rewrite lookup_empty in H. discriminate. }
  destruct J as [J1 J2 J3 J4 J5 J6]. clearbody j. destruct j as [s' st' d]. simpl in J1, J2, J4, J6 |- *.
  split; [exact J2|]. split.
  - intros e id q Hp Ab. destruct (d !! id) as [r|] eqn:Hd; [|discriminate].
    destruct (J6 _ _ Hd) as (q' & Hp' & A). rewrite Hp in Hp'. injection Hp' as <-. specialize (A Ab).
    unfold resume. rewrite Hp. pose proof (up_pend s' J1 _ _ Hp) as OK.
    destruct q as [c path snap|c key i cn path|c key i cn path|c key]; simpl in Ab, OK;
      [destruct OK as [OK _]; congruence|destruct r..]; simpl; congruence.
  - intros e size. unfold init_upload, upload_entry. destruct (has_permission _ _ _); [|split; discriminate].
    rewrite guard_new_spec. destruct (decide (guards s' = ∅)); [|split; discriminate].
    assert (Cp : contains_path (set_guards {[e_caller e]} s') p = true).
    { destruct (contains_path _ p) eqn:E; [reflexivity|]. exfalso.
      eapply (contains_path_false (set_guards {[e_caller e]} s') p u E); [exact J2|]. apply (up_path s' J1 _ _ J2). }
    unfold init_upload_first. rewrite Cp. split; discriminate.
Qed.
Print Assumptions C131_dropped_for_ever.

(** An upload finalized by the storage canister but not in the ledger stays unfinished there unless it is cancelled. *)
Theorem C131_finalized_unfinished {ST} (srv : ST -> principal -> srequest -> ST * option serr) view l s st p u :
  storage_laws srv view -> reachable s -> files s !! p = Some u -> u_state u <> UFinalized -> view st (u_canister u) p = Some UFinalized ->
  (forall id c, pend s !! id <> Some (PCancel c p)) -> Forall (no_cancel p) l ->
  let j := jrun srv l (mkJ s st ∅) in
  files (j_ledger j) !! p = Some u /\
  (forall e id q, pend (j_ledger j) !! id = Some q -> about p q -> snd (jstep srv (JReply e id) j) <> Some AOk).
Proof.
  intros L R F N0 V P C j.
  assert (J : off view p u (Some UFinalized) j).
  { apply (jrun_off srv view L); [intros _; exact C|]. constructor; simpl; auto.
    - apply reachable_up_inv. exact R.
    - intros id r H. rewrite lookup_empty in H. discriminate. }
  destruct J as [J1 J2 J3 J4 J5 J6]. clearbody j. destruct j as [s' st' d]. simpl in J1, J2, J4, J6 |- *.
  split; [exact J2|]. intros e id q Hp Ab. destruct (d !! id) as [r|] eqn:Hd; [|discriminate].
  destruct (J6 _ _ Hd) as (q' & Hp' & A). rewrite Hp in Hp'. injection Hp' as <-. specialize (A Ab).
  unfold resume. rewrite Hp. pose proof (up_pend s' J1 _ _ Hp) as OK.
  destruct q as [c path snap|c key i cn path|c key i cn path|c key]; simpl in Ab, OK;
    [destruct OK as [OK _]; congruence|destruct r..]; simpl; congruence.
Qed.
Print Assumptions C131_finalized_unfinished.

Lemma jstep_reachable {ST} (srv : ST -> principal -> srequest -> ST * option serr) x j :
  reachable (j_ledger j) -> reachable (j_ledger (fst (jstep srv x j))).
Proof.
  intros R. destruct j as [s st d]. simpl in R.
  assert (S : forall e o, reachable (fst (step e o s))) by (intros e o; apply run_reachable_step; exact R).
  destruct x as [e o|id size n|e id|e id|now path u f]; unfold jstep.
  - specialize (S e o). destruct o; try (match goal with |- context[step ?a ?b ?c] => destruct (step a b c) end); exact S || exact R.
  - destruct (pend s !! id); [|exact R]. destruct (d !! id); [exact R|]. destruct (exec _ _ _ _ _ _). exact R.
  - destruct (d !! id) as [r|]; [|exact R]. specialize (S e (OReply id r)). destruct (step _ _ _). exact S.
  - specialize (S e (OReply id RTrap)). destruct (step _ _ _). exact S.
  - destruct (_ <? _); [|exact R]. destruct f; exact R.
Qed.

Lemma jrun_reachable {ST} (srv : ST -> principal -> srequest -> ST * option serr) l : forall j,
  reachable (j_ledger j) -> reachable (j_ledger (jrun srv l j)).
Proof. induction l as [|x l IH]; intros j R; [exact R|]. apply IH. apply jstep_reachable. exact R. Qed.

Example C131_dropped_example :
  let j := jrun ref_srv collected start in
  storage_laws ref_srv ref_view /\ reachable (j_ledger j) /\
  files (j_ledger j) !! "a.png"%string = Some (mkUp t0 UInProgress shelf "a.png") /\
  ref_view (j_store j) shelf "a.png" = None /\
  snd (jstep ref_srv (JReply (from_ admin 6) 2) (jrun ref_srv [JMsg (from_ admin 6) (OStoreChunk "a.png"); JExec 2 10 busy_net] j)) =
    Some (AErr EUploadNotInitialized) /\
  snd (jstep ref_srv (JReply (from_ admin 6) 2) (jrun ref_srv [JMsg (from_ admin 6) (OCancel "a.png"); JExec 2 10 busy_net] j)) =
    Some (AErr EUploadNotInitialized).
Proof.
  intros j. split; [apply ref_laws|]. split; [apply jrun_reachable; apply (demo_reachable [])|].
  split; [vm_compute; reflexivity|]. split; [vm_compute; reflexivity|]. split; vm_compute; reflexivity.
Qed.

Example C131_finalized_example :
  let j := jrun ref_srv lost_reply start in
  reachable (j_ledger j) /\
  option_map u_state (files (j_ledger j) !! "a.png"%string) = Some UInProgress /\
  ref_view (j_store j) shelf "a.png" = Some UFinalized /\ pend (j_ledger j) = ∅ /\
  Forall (no_cancel "a.png") (three (from_ admin 6) (OFinalize "a.png") 3 busy_net) /\
  snd (jstep ref_srv (JReply (from_ admin 6) 3) (jrun ref_srv [JMsg (from_ admin 6) (OFinalize "a.png"); JExec 3 10 busy_net] j)) =
    Some (AErr EUploadAlreadyFinalized).
Proof.
  intros j. split; [apply jrun_reachable; apply (demo_reachable [])|].
  split; [vm_compute; reflexivity|]. split; [vm_compute; reflexivity|].
  split; [apply map_size_empty_inv; vm_compute; reflexivity|]. split; [|vm_compute; reflexivity].
  repeat constructor.
Qed.

(** Refuted: after the garbage collector cancelled it, an upload can be neither completed nor cancelled nor begun again. *)
Theorem C131_recover_refuted :
  exists before : list jop, forall after : list jop,
    let j := jrun ref_srv after (jrun ref_srv before start) in
    option_map u_state (files (j_ledger j) !! "a.png"%string) = Some UInProgress /\
    forall e size, snd (step e (OInitUpload "a.png" size) (j_ledger j)) <> APending.
Proof.
  exists collected. intros after.
  assert (E : exists s st, jrun ref_srv collected start = mkJ s st ∅ /\ reachable s /\
    files s !! "a.png"%string = Some (mkUp t0 UInProgress shelf "a.png") /\ ref_view st shelf "a.png" = None).
  { pose proof (jrun_reachable ref_srv collected start (demo_reachable [])) as R.
    assert (D : j_done (jrun ref_srv collected start) = ∅) by (apply map_size_empty_inv; vm_compute; reflexivity).
    assert (F : files (j_ledger (jrun ref_srv collected start)) !! "a.png"%string = Some (mkUp t0 UInProgress shelf "a.png"))
      by (vm_compute; reflexivity).
    assert (V : ref_view (j_store (jrun ref_srv collected start)) shelf "a.png" = None) by (vm_compute; reflexivity).
    destruct (jrun ref_srv collected start) as [s st d]. simpl in R, D, F, V. subst d. eauto 7. }
  destruct E as (s & st & -> & R & F & V).
  destruct (C131_dropped_for_ever ref_srv ref_view after s st "a.png" _ ref_laws R F ltac:(discriminate) V) as (A & _ & C).
  split; [rewrite A; reflexivity|]. intros e size. apply C.
Qed.
Print Assumptions C131_recover_refuted.

Lemma retry_reaches {ST} (srv : ST -> principal -> srequest -> ST * option serr) c rq l : forall t st,
  (forall t, ReplyLost t ∉ l) -> Delivered ∈ l -> snd (srv st c rq) = None ->
  retry srv c rq l t st = (fst (srv st c rq), inl None).
Proof.
  induction l as [|[|t1|t1] l IH]; intros t st T D S; simpl.
  - apply elem_of_nil in D. contradiction.
  - destruct (srv st c rq) as [st' y]. simpl in *. subst y. reflexivity.
  - apply IH; [intros t2 X; apply (T t2); right; exact X| |exact S].
    apply elem_of_cons in D. destruct D as [D|D]; [discriminate|exact D].
  - exfalso. apply (T t1). left.
Qed.

(** Partial: while ledger and storage canisters agree, an unfinished upload can be cancelled, and the path used again. *)
Theorem C131_recover_partial {ST} (srv : ST -> principal -> srequest -> ST * option serr) view s st e e' p u n size :
  storage_laws srv view ->
  (forall st c p x, view st c p = Some x -> x <> UFinalized -> snd (srv st c (SqCancel p)) = None) ->
  reachable s -> pend s = ∅ -> guards s = ∅ -> agree (files s) (view st) ->
  files s !! p = Some u -> u_state u <> UFinalized -> holds s (e_caller e) PUpdateUploads ->
  n_installed n (u_canister u) = true -> truthful n -> Delivered ∈ n_fates n (u_canister u) ->
  let j := jrun srv [JMsg e (OCancel p); JExec (next_pend s) size n] (mkJ s st ∅) in
  let j' := fst (jstep srv (JReply e' (next_pend s)) j) in
  snd (jstep srv (JReply e' (next_pend s)) j) = Some AOk /\
  files (j_ledger j') = delete p (files s) /\ agree (files (j_ledger j')) (view (j_store j')) /\
  pend (j_ledger j') = ∅ /\ guards (j_ledger j') = ∅ /\
  (forall k, k <= max_file_size -> snd (step e (OInitUpload p k) (j_ledger j')) = APending).
Proof.
  intros L Live R P G A F N0 H I T D j j'.
  pose proof (reachable_up_inv s R) as U. apply holds_iff in H.
  set (s1 := set_next_pend (next_pend s + 1) (set_pend {[next_pend s := PCancel (e_caller e) p]} (set_guards {[e_caller e]} s))).
  assert (S1 : step e (OCancel p) s = (s1, APending)).
  { simpl. unfold cancel_upload, upload_entry. rewrite H, guard_new_spec, decide_True by exact G.
    unfold cancel_upload_first. simpl. rewrite F. rewrite bool_decide_true by (apply (up_subs s U _ _ F)).
    destruct (u_state u); [..|congruence]; unfold s1; simpl; rewrite P; reflexivity. }
  assert (V : view st (u_canister u) p = Some (u_state u)) by (rewrite A, F, decide_True; reflexivity).
  set (st1 := fst (srv st (u_canister u) (SqCancel p))).
  assert (X : exec srv n size (PCancel (e_caller e) p) (files s) st = (st1, ROk)).
  { simpl. rewrite F. unfold sub_call. rewrite I.
    rewrite (retry_reaches srv (u_canister u) (SqCancel p) (n_fates n (u_canister u)) "" st (T _) D); [reflexivity|]. eapply Live; eauto. }
  assert (J : j = mkJ s1 st1 {[next_pend s := ROk]}).
  { unfold j. cbn [jrun]. unfold jstep at 2. rewrite S1. cbn [fst]. unfold jstep.
    assert (Pq : pend s1 !! next_pend s = Some (PCancel (e_caller e) p)) by apply lookup_insert. rewrite Pq, lookup_empty.
    change (files s1) with (files s). rewrite X. reflexivity. }
  assert (S2 : step e' (OReply (next_pend s) ROk) s1 =
    (set_pend ∅ (guard_drop (e_caller e) (set_files (delete p (files s)) s1)), AOk)).
  { simpl. unfold resume. assert (Pq : pend s1 !! next_pend s = Some (PCancel (e_caller e) p)) by apply lookup_insert. rewrite Pq.
    cbn [continue]. simpl. rewrite delete_singleton. reflexivity. }
  assert (J' : jstep srv (JReply e' (next_pend s)) j =
    (mkJ (set_pend ∅ (guard_drop (e_caller e) (set_files (delete p (files s)) s1))) st1 ∅, Some AOk)).
  { rewrite J. unfold jstep. rewrite lookup_singleton, S2, delete_singleton. reflexivity. }
  unfold j'. rewrite J'. cbn [fst snd j_ledger j_store].
  set (s2 := set_pend ∅ (guard_drop (e_caller e) (set_files (delete p (files s)) s1))).
  assert (F2 : files s2 = delete p (files s)) by reflexivity.
  assert (G2 : guards s2 = ∅).
  { unfold s2, guard_drop. simpl. set_solver. }
  split; [reflexivity|]. split; [exact F2|]. split.
  { rewrite F2. destruct (srv st (u_canister u) (SqCancel p)) as [a b] eqn:Q.
    assert (b = None) as ->. { change b with (snd (a, b)). rewrite <- Q. eapply Live; eauto. }
    apply (law_cancel _ _ L) in Q. destruct Q as [_ Q]. eapply agree_delete; eauto. }
  split; [reflexivity|]. split; [exact G2|]. intros k K. simpl. unfold init_upload, upload_entry.
  assert (H2 : has_permission s2 (e_caller e) PUpdateUploads = true) by (apply holds_iff, (holds_same s s2); [reflexivity|]; apply holds_iff; exact H).
  rewrite H2, guard_new_spec, decide_True by exact G2. unfold init_upload_first.
  assert (E : contains_path (set_guards {[e_caller e]} s2) p = false).
  { rewrite contains_path_true.
    - apply bool_decide_eq_false. change (files (set_guards {[e_caller e]} s2)) with (delete p (files s)). rewrite lookup_delete.
      intros [? ?]. discriminate.
    - intros k' u' X'. change (delete p (files s) !! k' = Some u') in X'. apply lookup_delete_Some in X'. apply (up_path s U), X'. }
  rewrite E.
  assert (K' : max_file_size <? k = false) by (apply N.ltb_ge; exact K). rewrite K'. reflexivity.
Qed.
Print Assumptions C131_recover_partial.

Example C131_recover_example :
  let j := jrun ref_srv begun start in
  (forall st c p x, ref_view st c p = Some x -> x <> UFinalized -> snd (ref_srv st c (SqCancel p)) = None) /\
  reachable (j_ledger j) /\ pend (j_ledger j) = ∅ /\ guards (j_ledger j) = ∅ /\ agree (files (j_ledger j)) (ref_view (j_store j)) /\
  option_map u_state (files (j_ledger j) !! "a.png"%string) = Some UInProgress /\ holds (j_ledger j) admin PUpdateUploads /\
  n_installed busy_net shelf = true /\ truthful busy_net /\ Delivered ∈ n_fates busy_net shelf.
Proof.
  intros j.
  assert (T : truthful busy_net).
  { intros c t H. apply elem_of_cons in H. destruct H as [H|H]; [discriminate|]. apply elem_of_list_singleton in H. discriminate. }
  assert (P : pend (j_ledger j) = ∅) by (apply map_size_empty_inv; vm_compute; reflexivity).
  split. { intros st c p x V _. unfold ref_view in V. simpl. rewrite V. reflexivity. }
  split; [apply jrun_reachable; apply (demo_reachable [])|]. split; [exact P|].
  split; [apply leibniz_equiv, elements_empty_inv; vm_compute; reflexivity|].
  split. { apply (C130_agree_partial ref_srv ref_view begun demo0 ∅ ref_laws (demo_reachable []) eq_refl demo0_agree); [|exact P].
    unfold begun, three. cbn [app calm_events calm_event]. repeat (split; [first [discriminate|exact T|exact Logic.I]|]). exact Logic.I. }
  split; [vm_compute; reflexivity|]. split; [apply holds_iff; vm_compute; reflexivity|].
  split; [reflexivity|]. split; [exact T|]. right. left.
Qed.

(** ** C132 *)

(** What becomes of a request that is attempted until a reply is heard. *)
Inductive heard {ST} (srv : ST -> principal -> srequest -> ST * option serr) (c : principal) (rq : srequest) :
  list fate -> ST -> ST -> option (option serr) -> Prop :=
| heard_none st : heard srv c rq [] st st None
| heard_reply l st st' y : srv st c rq = (st', y) -> heard srv c rq (Delivered :: l) st st' (Some y)
| heard_not l st st' y t : heard srv c rq l st st' y -> heard srv c rq (NotSent t :: l) st st' y
| heard_lost l st st' y t : heard srv c rq l (fst (srv st c rq)) st' y -> heard srv c rq (ReplyLost t :: l) st st' y.

(** Request of a waiting call other than init. *)
Definition asks (s : state) (q : pending) : option (principal * srequest) :=
  match q with
  | PInit _ _ _ => None
  | PStore _ k _ c _ => Some (c, SqStore k)
  | PFinalize _ k _ c _ => Some (c, SqFinalize k)
  | PCancel _ k => match files s !! k with Some u => Some (u_canister u, SqCancel k) | None => None end
  end.

(** Errors that have the same name on both sides, per call. *)
Definition same_name (rq : srequest) (x : serr) : option err :=
  match rq, x with
  | SqStore _, SNotInitialized => Some EUploadNotInitialized
  | SqStore _, SAlreadyFinalized => Some EUploadAlreadyFinalized
  | SqFinalize _, SNotStarted => Some EUploadNotStarted
  | SqFinalize _, SAlreadyFinalized => Some EUploadAlreadyFinalized
  | SqFinalize _, SIncomplete => Some EIncompleteUpload
  | SqCancel _, SNotInitialized => Some EUploadNotInitialized
  | _, _ => None
  end.

Lemma retry_heard {ST} (srv : ST -> principal -> srequest -> ST * option serr) c rq l : forall t st,
  exists y, heard srv c rq l st (fst (retry srv c rq l t st)) y /\
    match y with Some z => snd (retry srv c rq l t st) = inl z | None => exists t', snd (retry srv c rq l t st) = inr t' end.
Proof.
  induction l as [|[|t1|t1] l IH]; intros t st; simpl.
  - exists None. split; [constructor|eauto].
  - destruct (srv st c rq) as [st' z] eqn:S. exists (Some z). split; [constructor; exact S|reflexivity].
  - destruct (IH t1 st) as (y & H & R). exists y. split; [constructor; exact H|exact R].
  - destruct (IH t1 (fst (srv st c rq))) as (y & H & R). exists y. split; [constructor; exact H|exact R].
Qed.

(** A store, finalize or cancel call answers what the storage canister replied: success for success, the error of the same
    name if there is one, and a storage error otherwise; nothing is sent to a canister that is not installed. *)
Theorem C132_reports_partial {ST} (srv : ST -> principal -> srequest -> ST * option serr) s st id q c rq n size e :
  reachable s -> pend s !! id = Some q -> asks s q = Some (c, rq) ->
  let j := fst (jstep srv (JExec id size n) (mkJ s st ∅)) in
  let a := snd (jstep srv (JReply e id) j) in
  if n_installed n c then
    exists y, heard srv c rq (n_fates n c) st (j_store j) y /\
      match y with
      | Some None => a = Some AOk
      | Some (Some x) =>
          match same_name rq x with
          | Some er => a = Some (AErr er)
          | None => (match rq with SqCancel _ => False | _ => True end) -> a = Some (AErr (EStorageCanisterError (n_text n x)))
          end
      | None => exists t, a = Some (AErr (EStorageCanisterError t))
      end
  else j_store j = st /\ a = Some (AErr (EStorageCanisterError "Canister is not installed")).
Proof.
  intros R Hp As j a.
  assert (G : forall st' r, exec srv n size q (files s) st = (st', r) ->
     j = mkJ s st' {[id := r]} /\
     a = Some (match snd (continue (e_now e) q r s) with
               | None => ATrap | Some (MReject m) => AReject m | Some (MOk _) => AOk | Some (MErr er) => AErr er end)).
  { intros st' r X. assert (J : j = mkJ s st' {[id := r]}).
    { unfold j, jstep. rewrite Hp, lookup_empty, X. reflexivity. }
    split; [exact J|]. unfold a. rewrite J. unfold jstep. rewrite lookup_singleton. simpl. unfold resume. rewrite Hp.
    destruct (continue (e_now e) q r s) as [s1 [[]|]]; reflexivity. }
  clearbody a.
  assert (Main : forall conv, exec srv n size q (files s) st = (let '(st', x) := sub_call srv n conv c rq st in (st', as_reply x)) ->
     (forall x, snd (continue (e_now e) q (as_reply x) s) = Some (match x with None => MOk () | Some er => MErr er end)) ->
     (forall x, match same_name rq x with Some er => conv x = er | None => (match rq with SqCancel _ => False | _ => True end) -> conv x = EStorageCanisterError (n_text n x) end) ->
     if n_installed n c then
       exists y, heard srv c rq (n_fates n c) st (j_store j) y /\
       match y with
       | Some None => a = Some AOk
       | Some (Some x) => match same_name rq x with Some er => a = Some (AErr er)
           | None => (match rq with SqCancel _ => False | _ => True end) -> a = Some (AErr (EStorageCanisterError (n_text n x))) end
       | None => exists t, a = Some (AErr (EStorageCanisterError t))
       end
     else j_store j = st /\ a = Some (AErr (EStorageCanisterError "Canister is not installed"))).
  { intros conv X C N0. unfold sub_call in X. destruct (n_installed n c).
    - destruct (retry_heard srv c rq (n_fates n c) "" st) as (y & H & Q). exists y.
      destruct (retry srv c rq (n_fates n c) "" st) as [st' z]. simpl in H, Q. destruct (G _ _ X) as [-> A]. split; [exact H|].
      rewrite C in A. destruct y as [[x|]|].
      + subst z. specialize (N0 x). destruct (same_name rq x) as [er|]; [rewrite <- N0; exact A|].
        intros W. rewrite <- (N0 W). exact A.
      + subst z. exact A.
      + destruct Q as [t ->]. exists t. exact A.
    - destruct (G _ _ X) as [-> A]. split; [reflexivity|]. rewrite A, C. reflexivity. }
  destruct q as [c0 path snap|c0 key i cn path|c0 key i cn path|c0 key]; simpl in As.
  - discriminate.
  - injection As as <- <-. apply (Main (store_err n)); [reflexivity|intros []; reflexivity|intros []; simpl; auto].
  - injection As as <- <-. apply (Main (finalize_err n)); [reflexivity|intros []; reflexivity|intros []; simpl; auto].
  - destruct (files s !! key) as [u|] eqn:F; [|discriminate]. injection As as <- <-.
    apply (Main (cancel_err n)); [simpl; rewrite F; reflexivity|intros []; reflexivity|intros []; simpl; auto; contradiction].
Qed.
Print Assumptions C132_reports_partial.

(** Refuted for [init_upload]: that a storage canister already has the file is never reported; the upload goes to another
    canister, and the refusal of a new canister is reported as a storage error. *)
Theorem C132_init_refuted :
  (forall {ST} (srv : ST -> principal -> srequest -> ST * option serr) n path size l st created,
     snd (manager_init srv n path size l st) <> RInitErr created EFileAlreadyExists) /\
  let j := jrun ref_srv (three (from_ admin 0) (OInitUpload "a.png" 10) 0 busy_net) start in
  let st1 := <[(shelf, "b.png"%string) := UInProgress]> (j_store j) in
  let other := mkNet (fun _ => true) (fun _ => Some 0) (fun _ => [Delivered]) (inl [8]) (fun _ => "") (fun _ => "") in
  ref_srv st1 shelf (SqInit "b.png") = (st1, Some SFileExists) /\
  snd (manager_init ref_srv other "b.png" 10 (subs (j_ledger j)) st1) = RInitOk [8] /\
  ref_view (fst (manager_init ref_srv other "b.png" 10 (subs (j_ledger j)) st1)) shelf "b.png" = Some UInProgress /\
  ref_view (fst (manager_init ref_srv other "b.png" 10 (subs (j_ledger j)) st1)) [8] "b.png" = Some UInit.
Proof.
  split.
  - intros ST srv n path size l st created. unfold manager_init. destruct (try_canisters _ _ _ _ _ _) as [st1 [c|]]; [discriminate|].
    destruct (n_create n) as [c|t]; [|discriminate]. destruct (sub_call _ _ _ _ _ _) as [st2 [er|]]; discriminate.
  - split; [|vm_compute; repeat split; reflexivity].
    unfold ref_srv. rewrite lookup_insert. reflexivity.
Qed.
Print Assumptions C132_init_refuted.

Example C132_example :
  let j := jrun ref_srv (begun ++ [JMsg (from_ admin 2) (OFinalize "a.png")]) start in
  reachable (j_ledger j) /\ pend (j_ledger j) !! 2 = Some (PFinalize admin "a.png" t0 shelf "a.png") /\
  asks (j_ledger j) (PFinalize admin "a.png" t0 shelf "a.png") = Some (shelf, SqFinalize "a.png") /\
  j_done j !! 2 = None /\
  map (fun n => snd (jstep ref_srv (JReply (from_ admin 3) 2) (fst (jstep ref_srv (JExec 2 10 n) j)))) [busy_net; lossy_net] =
    [Some AOk; Some (AErr EUploadAlreadyFinalized)].
Proof.
  intros j. split; [apply jrun_reachable; apply (demo_reachable [])|].
  split; [vm_compute; reflexivity|]. split; [reflexivity|]. split; vm_compute; reflexivity.
Qed.

(** The choice of a canister here is the one of [ModelStorage] (C50) for suitable answers of the canisters. *)
Lemma try_canisters_installed {ST} (srv : ST -> principal -> srequest -> ST * option serr) n path size l : NoDup l -> forall st,
  exists acc, forall w, (forall c, w_size w c = n_size n c) -> (forall c, c ∈ l -> w_accept w c = acc c) ->
    try_installed w size l = snd (try_canisters srv n path size l st).
Proof.
  intros ND. induction ND as [|c l Nc ND IH]; intros st.
  - exists (fun _ => None). reflexivity.
  - simpl. destruct (n_size n c) as [k|] eqn:Sz; [destruct (add128 k size <=? max_storage_size) eqn:Le|].
    + destruct (sub_call srv n (init_err n) c (SqInit path) st) as [st' [er|]].
      * destruct (IH st') as [acc H]. exists (fun x => if decide (x = c) then Some "" else acc x). intros w W1 W2.
        rewrite W1, Sz, Le, (W2 c), decide_True by (auto; left). apply H; [exact W1|].
        intros x Hx. rewrite (W2 x), decide_False; [reflexivity|congruence|right; exact Hx].
      * exists (fun _ => None). intros w W1 W2. rewrite W1, Sz, Le, (W2 c) by left. reflexivity.
    + destruct (IH st) as [acc H]. exists acc. intros w W1 W2. rewrite W1, Sz, Le. apply H; [exact W1|]. intros x Hx. apply W2. right. exact Hx.
    + destruct (IH st) as [acc H]. exists acc. intros w W1 W2. rewrite W1, Sz. apply H; [exact W1|]. intros x Hx. apply W2. right. exact Hx.
Qed.

Theorem C132_choice {ST} (srv : ST -> principal -> srequest -> ST * option serr) n path size l st :
  NoDup l -> size <= max_file_size -> (forall c, n_create n = inl c -> c ∉ l) ->
  exists w, (forall c, w_size w c = n_size n c) /\
    manager_init_upload w (filter (fun c => n_installed n c = true) l) size = snd (manager_init srv n path size l st).
Proof.
  intros ND Sz Nw.
  set (fl := filter (fun c => n_installed n c = true) l).
  assert (ND' : NoDup fl) by (apply NoDup_filter; exact ND).
  destruct (try_canisters_installed srv n path size fl ND' st) as [acc H].
  set (last := match n_create n with
               | inl c => match snd (sub_call srv n (init_err n) c (SqInit path) (fst (try_canisters srv n path size fl st))) with
                          | Some er => Some (n_etext n er) | None => None end
               | inr _ => None end).
  set (w := mkWorld (n_size n) (fun x => match n_create n with inl c => if decide (x = c) then last else acc x | inr _ => acc x end) (n_create n)).
  exists w. split; [reflexivity|].
  assert (T : try_installed w size fl = snd (try_canisters srv n path size fl st)).
  { apply H; [reflexivity|]. intros x Hx. simpl. destruct (n_create n) as [c|] eqn:Cr; [|reflexivity].
    rewrite decide_False; [reflexivity|]. intros ->. apply (Nw c eq_refl). apply elem_of_list_filter in Hx. apply Hx. }
  unfold manager_init_upload, manager_init. fold fl.
  assert (E : max_file_size <? size = false) by (apply N.ltb_ge; exact Sz). rewrite E, T.
  destruct (try_canisters srv n path size fl st) as [st1 [c|]] eqn:X; [reflexivity|]. simpl. unfold last.
  destruct (n_create n) as [c|t] eqn:Cr; [|reflexivity]. rewrite decide_True by reflexivity. cbn [fst].
  destruct (sub_call srv n (init_err n) c (SqInit path) st1) as [st2 [er|]]; reflexivity.
Qed.
Print Assumptions C132_choice.

Example C132_choice_example :
  NoDup [shelf] /\ (forall c, n_create (mkNet (fun _ => true) (fun _ => Some 0) (fun _ => [Delivered]) (inl [8]) (fun _ => "") (fun _ => "")) = inl c -> c ∉ [shelf]).
Proof.
  split; [apply NoDup_singleton|]. intros c [= <-] H. apply elem_of_list_singleton in H. discriminate.
Qed.
