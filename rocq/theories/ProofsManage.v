(** Inversion lemmas for the management calls. *)
From Verif Require Import Base ModelPrincipal ModelState ModelIcrc7 ModelIcrc37 ModelManagement ModelLifecycle
  ModelQueries ModelStep ProofsItems.

(** ** The lock *)
Definition commutes {A} (body : state -> option (state * mres A)) : Prop :=
  forall g s, body (set_guards g s) = match body s with
                                      | None => None
                                      | Some (s', r) => Some (set_guards g s', r)
                                      end.

Lemma set_guards_id s : set_guards (guards s) s = s.
Proof. destruct s; reflexivity. Qed.

Lemma commutes_guards {A} (body : state -> option (state * mres A)) s s' r :
  commutes body -> body s = Some (s', r) -> guards s' = guards s.
Proof.
  intros C H. specialize (C (guards s) s). rewrite set_guards_id, H in C.
  injection C as C. rewrite C. reflexivity.
Qed.

Lemma guard_new_spec p s :
  guard_new p s = if decide (guards s = ∅) then Some (set_guards {[p]} s) else None.
Proof.
  unfold guard_new, max_concurrent. destruct (decide (guards s = ∅)) as [E|E].
  - rewrite E. rewrite size_empty. simpl. f_equal. f_equal. set_solver.
  - destruct (1 <=? size (guards s))%nat eqn:L; [reflexivity|].
    exfalso. apply Nat.leb_gt in L. apply E. apply leibniz_equiv, size_empty_inv. lia.
Qed.

Lemma with_lock_eq {A} e s (body : state -> option (state * mres A)) :
  commutes body ->
  with_lock e s body = if decide (guards s = ∅) then body s else Some (s, MErr EConcurrentManagementCall).
Proof.
  intros C. unfold with_lock. rewrite guard_new_spec.
  destruct (decide (guards s = ∅)) as [E|E]; [|reflexivity].
  rewrite C. destruct (body s) as [[s2 r]|] eqn:B; [|reflexivity].
  f_equal. f_equal. unfold guard_drop.
  pose proof (commutes_guards _ _ _ _ C B) as G. rewrite E in G.
  replace (guards (set_guards {[e_caller e]} s2) ∖ {[e_caller e]}) with (∅ : gset principal)
    by (simpl; set_solver).
  transitivity (set_guards (guards s2) s2); [rewrite G; destruct s2; reflexivity|apply set_guards_id].
Qed.

(** ** Settings and permissions *)
Lemma commutes_cfg u : commutes (fun s1 => Some (set_cfg (apply_update u (cfg s1)) s1, @MOk unit tt)).
Proof. intros g s. reflexivity. Qed.
Lemma commutes_perm (f : gmap principal (list permission) -> gmap principal (list permission)) :
  commutes (fun s1 => Some (set_perms (f (perms s1)) s1, @MOk unit tt)).
Proof. intros g s. reflexivity. Qed.

(** ** Mint *)
Fixpoint mint_txs (now id : N) (l : list mint_req) : list tx :=
  match l with
  | [] => []
  | r :: rest => mint_tx now id r :: mint_txs now (id + 1) rest
  end.

Lemma mint_txs_length now id l : length (mint_txs now id l) = length l.
Proof. revert id. induction l; intros; simpl; auto. Qed.

Lemma mint_txs_lookup now id l k r :
  l !! k = Some r -> mint_txs now id l !! k = Some (mint_tx now (id + N.of_nat k) r).
Proof.
  revert id k. induction l as [|x l IH]; intros id k H; [rewrite lookup_nil in H; discriminate|].
  destruct k; simpl in *.
  - injection H as ->. f_equal. f_equal. lia.
  - rewrite (IH (id + 1) k H). f_equal. f_equal. lia.
Qed.

Lemma mint_log_inv e id l s s' o :
  mint_log e id l s = (s', o) ->
  exists idxs n, s' = set_lcalls n (set_log (log s ++ zip idxs (mint_txs (e_now e) id l)) s) /\
    match o with
    | None => length idxs = length l
    | Some msg => (length idxs < length l)%nat
    end.
Proof.
  revert id s. induction l as [|r l IH]; intros id s H; simpl in H.
  - injection H as <- <-. exists [], (lcalls s). simpl. split; [|reflexivity].
    rewrite app_nil_r. destruct s; reflexivity.
  - destruct (add_transaction e _ s) as [s1 ans] eqn:A.
    destruct (add_transaction_inv _ _ _ _ _ A) as (Hans & [(i & -> & ->)|[Hn Q]]).
    + apply IH in H. destruct H as (idxs & n & -> & Ho).
      exists (i :: idxs), n. simpl. rewrite <- app_assoc. simpl. split; [reflexivity|].
      destruct o; simpl; lia.
    + destruct ans as [i| | |]; [destruct (Hn i eq_refl)| | |]; injection H as <- <-.
      all: unfold add_transaction in A; rewrite <- Hans in A; injection A as <-.
      all: exists [], (lcalls s + 1); simpl; rewrite app_nil_r; split; [destruct s; reflexivity|lia].
Qed.

(** Owners written by a mint. *)
Fixpoint mint_tokens (id : N) (l : list mint_req) (T : gmap N token) : gmap N token :=
  match l with
  | [] => T
  | r :: rest => mint_tokens (id + 1) rest (<[id := mkTok id (mr_owner r)]> T)
  end.
Fixpoint mint_lists (id : N) (l : list mint_req) (B : gmap acckey (list N)) : gmap acckey (list N) :=
  match l with
  | [] => B
  | r :: rest => mint_lists (id + 1) rest
                   (<[akey (mr_owner r) := default [] (B !! akey (mr_owner r)) ++ [id]]> B)
  end.

Lemma mint_insert_eq id l s :
  mint_insert id l s = set_by_owner (mint_lists id l (by_owner s)) (set_tokens (mint_tokens id l (tokens s)) s).
Proof.
  revert id s. induction l as [|r l IH]; intros id s; simpl.
  - destruct s; reflexivity.
  - rewrite IH. reflexivity.
Qed.

Lemma mint_tokens_lookup id l T i :
  mint_tokens id l T !! i =
    if decide (id <= i < id + nlen l) then mkTok i ∘ mr_owner <$> l !! N.to_nat (i - id) else T !! i.
Proof.
  revert id T. induction l as [|r l IH]; intros id T; simpl.
  - destruct (decide _) as [D|D]; [|reflexivity]. unfold nlen in D; simpl in D. lia.
  - rewrite IH. unfold nlen in *. simpl length.
    destruct (decide (id + 1 <= i < id + 1 + N.of_nat (length l))) as [D|D].
    + destruct (decide (id <= i < id + N.of_nat (S (length l)))) as [D2|D2]; [|lia].
      replace (N.to_nat (i - id)) with (S (N.to_nat (i - (id + 1)))) by lia. reflexivity.
    + destruct (decide (id = i)) as [->|Hne].
      * rewrite lookup_insert. destruct (decide (i <= i < i + N.of_nat (S (length l)))) as [D2|D2]; [|lia].
        rewrite N.sub_diag. reflexivity.
      * rewrite lookup_insert_ne by exact Hne.
        destruct (decide (id <= i < id + N.of_nat (S (length l)))) as [D2|D2]; [lia|reflexivity].
Qed.

(** Ids of the requests whose recipient is [k]. *)
Fixpoint mint_ids_of (k : acckey) (id : N) (l : list mint_req) : list N :=
  match l with
  | [] => []
  | r :: rest => (if decide (akey (mr_owner r) = k) then [id] else []) ++ mint_ids_of k (id + 1) rest
  end.

Lemma mint_lists_lookup id l B k :
  default [] (mint_lists id l B !! k) = default [] (B !! k) ++ mint_ids_of k id l.
Proof.
  revert id B. induction l as [|r l IH]; intros id B; simpl; [rewrite app_nil_r; reflexivity|].
  rewrite IH. destruct (decide (akey (mr_owner r) = k)) as [<-|Hne].
  - rewrite lookup_insert. simpl. rewrite <- app_assoc. reflexivity.
  - rewrite lookup_insert_ne by exact Hne. reflexivity.
Qed.

Lemma check_memos_guards g s l : check_memos (set_guards g s) l = check_memos s l.
Proof. induction l as [|r l IH]; simpl; [reflexivity|]. unfold check_memo in *. simpl. rewrite IH. reflexivity. Qed.

Lemma mint_log_guards e id l g s :
  mint_log e id l (set_guards g s) = let '(s', o) := mint_log e id l s in (set_guards g s', o).
Proof.
  revert id s. induction l as [|r l IH]; intros id s; simpl; [reflexivity|].
  unfold add_transaction; simpl. destruct (e_log e _ _) as [i|i|i|i]; [|reflexivity..].
  rewrite <- IH. reflexivity.
Qed.

Lemma commutes_mint e l : commutes (mint_body e l).
Proof.
  intros g s. unfold mint_body. rewrite check_memos_guards. simpl.
  destruct (_ <? nlen l); [reflexivity|].
  destruct (_ <? _ + _); [reflexivity|].
  destruct (check_memos s l) as [[|]|]; [|reflexivity..].
  destruct (mint_metadata _ l (metas s)) as [m|]; [|reflexivity].
  change (set_metas m (set_guards g s)) with (set_guards g (set_metas m s)).
  rewrite mint_log_guards. destruct (mint_log e (last_id s) l (set_metas m s)) as [s2 [msg|]]; [reflexivity|].
  rewrite !mint_insert_eq. reflexivity.
Qed.

Lemma mint_body_inv e l s s' r :
  mint_body e l s = Some (s', r) ->
  (s' = s /\ exists er, r = MErr er /\ (forall m, er <> EStorageCanisterError m)) \/
  (check_memos s l = Some true /\
   nlen l <= default default_max_update (c_max_update (cfg s)) /\
   N.of_nat (size (tokens s)) + nlen l <= default default_supply_cap (c_supply_cap (cfg s)) /\
   exists m idxs n,
     mint_metadata (last_id s) l (metas s) = Some m /\
     let s1 := set_lcalls n (set_log (log s ++ zip idxs (mint_txs (e_now e) (last_id s) l)) (set_metas m s)) in
     ((exists msg, r = MErr (EStorageCanisterError msg) /\ (length idxs < length l)%nat /\ s' = s1) \/
      (r = MOk (last_id s) /\ length idxs = length l /\
       s' = set_by_owner (mint_lists (last_id s) l (by_owner s))
              (set_tokens (mint_tokens (last_id s) l (tokens s)) (set_last_id (last_id s + nlen l) s1))))).
Proof.
  unfold mint_body. intros H.
  destruct (_ <? nlen l) eqn:E1; [injection H as <- <-; left; split; [auto|eexists; split; [reflexivity|discriminate]]|].
  destruct (_ <? _ + _) eqn:E2; [injection H as <- <-; left; split; [auto|eexists; split; [reflexivity|discriminate]]|].
  apply N.ltb_ge in E1. apply N.ltb_ge in E2.
  destruct (check_memos s l) as [[|]|] eqn:CM;
    [|injection H as <- <-; left; split; [auto|eexists; split; [reflexivity|discriminate]]|discriminate].
  destruct (mint_metadata _ l (metas s)) as [m|] eqn:M; [|discriminate].
  destruct (mint_log e (last_id s) l (set_metas m s)) as [s2 o] eqn:L.
  apply mint_log_inv in L. destruct L as (idxs & n & -> & Ho). simpl in *.
  right. repeat split; auto.
  exists m, idxs, n. split; [reflexivity|]. simpl.
  destruct o as [msg|].
  - injection H as <- <-. left. exists msg. auto.
  - injection H as <- <-. right. rewrite mint_insert_eq. auto.
Qed.

(** ** Metadata update and burn *)
Lemma commutes_update e tid kvs : commutes (update_nft_metadata_body e tid kvs).
Proof.
  intros g s. unfold update_nft_metadata_body. simpl.
  destruct (tokens s !! tid) as [tok|]; [|reflexivity].
  destruct (replace_metadata _ _ _) as [m|]; [|reflexivity].
  unfold add_transaction; simpl. destruct (e_log e _ _); reflexivity.
Qed.

Lemma update_body_inv e tid kvs s s' r :
  update_nft_metadata_body e tid kvs s = Some (s', r) ->
  (s' = s /\ r = MErr ETokenDoesNotExist /\ tokens s !! tid = None) \/
  (exists tok m n, tokens s !! tid = Some tok /\ replace_metadata (t_id tok) kvs (metas s) = Some m /\
     ((exists msg, r = MErr (EStorageCanisterError msg) /\ s' = set_lcalls n (set_metas m s)) \/
      (exists i, r = MOk tid /\
         s' = set_lcalls n (set_log (log s ++ [(i, update_meta_tx e tid (meta_value tid (metas s)) (meta_value tid m))])
                (set_metas m s))))).
Proof.
  unfold update_nft_metadata_body. intros H.
  destruct (tokens s !! tid) as [tok|] eqn:T; [|injection H as <- <-; left; auto].
  destruct (replace_metadata _ _ _) as [m|] eqn:M; [|discriminate].
  right. exists tok, m, (lcalls s + 1). split; [auto|]. split; [auto|].
  unfold add_transaction in H; simpl in H.
  destruct (e_log e _ _) as [i|i|i|i]; injection H as <- <-.
  - right. exists i. split; [reflexivity|].
    simpl. rewrite (insert_id (tokens s)) by exact T. destruct s; reflexivity.
  - left. eauto.
  - left. eauto.
  - left. eauto.
Qed.

Lemma commutes_burn e tid : commutes (burn_body e tid).
Proof.
  intros g s. unfold burn_body. simpl.
  destruct (tokens s !! tid) as [tok|]; [|reflexivity].
  destruct (negb _); [reflexivity|].
  unfold add_transaction; simpl. destruct (e_log e _ _); reflexivity.
Qed.

Lemma burn_body_inv e tid s s' r :
  burn_body e tid s = Some (s', r) ->
  (quiet s s' /\ exists er, r = MErr er) \/
  (exists tok i n, r = MOk tt /\ tokens s !! tid = Some tok /\ acc_owner (t_owner tok) = e_caller e /\
     s' = set_tokens (delete tid (tokens s))
            (set_lcalls n (set_log (log s ++ [(i, burn_tx (e_now e) tid tok)]) s))).
Proof.
  unfold burn_body. intros H.
  destruct (tokens s !! tid) as [tok|] eqn:T; [|injection H as <- <-; left; split; [apply quiet_refl|eauto]].
  destruct (negb (bool_decide (e_caller e = acc_owner (t_owner tok)))) eqn:B;
    [injection H as <- <-; left; split; [apply quiet_refl|eauto]|].
  apply negb_false_iff, bool_decide_eq_true in B.
  unfold add_transaction in H; simpl in H.
  destruct (e_log e _ _) as [i|i|i|i]; injection H as <- <-.
  - right. exists tok, i, (lcalls s + 1). auto.
  - left. split; [exists (windows s), (lcalls s + 1); destruct s; reflexivity|eauto].
  - left. split; [exists (windows s), (lcalls s + 1); destruct s; reflexivity|eauto].
  - left. split; [exists (windows s), (lcalls s + 1); destruct s; reflexivity|eauto].
Qed.

(** ** Uploads *)
Lemma upload_entry_inv e s first s' u :
  upload_entry e s first = (s', u) ->
  (forall g s0, first (set_guards g s0) = let '(s1, x) := first s0 in (set_guards g s1, x)) ->
  (s' = s /\ exists er, u = Some er /\ forall x, er <> MOk x) \/
  (guards s = ∅ /\ has_permission s (e_caller e) PUpdateUploads = true /\
   ((exists er, first s = (s', inl er) /\ u = Some (MErr er)) \/
    (exists s1 p, first s = (s1, inr p) /\ u = None /\
       s' = set_next_pend (next_pend s1 + 1) (set_pend (<[next_pend s1 := p]> (pend s1)) (set_guards {[e_caller e]} s1))))).
Proof.
  unfold upload_entry. intros H C.
  destruct (has_permission s (e_caller e) PUpdateUploads) eqn:P;
    [|injection H as <- <-; left; split; [auto|eexists; split; [reflexivity|discriminate]]].
  rewrite guard_new_spec in H. destruct (decide (guards s = ∅)) as [E|E];
    [|injection H as <- <-; left; split; [auto|eexists; split; [reflexivity|discriminate]]].
  rewrite C in H. destruct (first s) as [s1 [er|p]] eqn:F.
  - injection H as <- <-. right. split; [auto|split; [auto|]]. left. exists er. split; [|reflexivity].
    f_equal. unfold guard_drop. simpl.
    pose proof (C (guards s) s) as C'. rewrite set_guards_id, F in C'.
    injection C' as C'. 
    replace ({[e_caller e]} ∖ {[e_caller e]}) with (guards s) by (rewrite E; set_solver).
    rewrite C' at 1. destruct s1; reflexivity.
  - injection H as <- <-. right. split; [auto|split; [auto|]]. right. exists s1, p. auto.
Qed.

Lemma init_first_guards e path sz g s0 :
  init_upload_first e path sz (set_guards g s0) = let '(s1, x) := init_upload_first e path sz s0 in (set_guards g s1, x).
Proof.
  unfold init_upload_first, contains_path. simpl. destruct (existsb _ _); [reflexivity|].
  destruct (_ <? _); reflexivity.
Qed.
Lemma store_first_guards e key g s0 :
  store_chunk_first e key (set_guards g s0) = let '(s1, x) := store_chunk_first e key s0 in (set_guards g s1, x).
Proof.
  unfold store_chunk_first. simpl. destruct (files s0 !! key) as [u|]; [|reflexivity].
  destruct (u_state u); [destruct (bool_decide _); reflexivity..|reflexivity].
Qed.
Lemma finalize_first_guards e key g s0 :
  finalize_upload_first e key (set_guards g s0) = let '(s1, x) := finalize_upload_first e key s0 in (set_guards g s1, x).
Proof.
  unfold finalize_upload_first. simpl. destruct (files s0 !! key) as [u|]; [|reflexivity].
  destruct (u_state u); [reflexivity|destruct (bool_decide _); reflexivity|reflexivity].
Qed.
Lemma cancel_first_guards e key g s0 :
  cancel_upload_first e key (set_guards g s0) = let '(s1, x) := cancel_upload_first e key s0 in (set_guards g s1, x).
Proof.
  unfold cancel_upload_first. simpl. destruct (files s0 !! key) as [u|]; [|reflexivity].
  destruct (u_state u); [destruct (bool_decide _); reflexivity..|reflexivity].
Qed.

(** What the first part of an upload call can do: nothing, forget an unfinished upload, or wait. *)
Inductive first_result (e : env) (s : state) : state -> err + pending -> Prop :=
| FR_err er : first_result e s s (inl er)
| FR_forget key u : files s !! key = Some u -> u_state u <> UFinalized -> u_canister u ∉ subs s ->
    first_result e s (set_files (delete key (files s)) s) (inl (EStorageCanisterError not_found_msg))
| FR_init path : contains_path s path = false -> first_result e s s (inr (PInit (e_caller e) path (subs s)))
| FR_store key u : files s !! key = Some u -> u_state u <> UFinalized -> u_canister u ∈ subs s ->
    first_result e s s (inr (PStore (e_caller e) key (u_init u) (u_canister u) (u_path u)))
| FR_finalize key u : files s !! key = Some u -> u_state u = UInProgress -> u_canister u ∈ subs s ->
    first_result e s s (inr (PFinalize (e_caller e) key (u_init u) (u_canister u) (u_path u)))
| FR_cancel key u : files s !! key = Some u -> u_state u <> UFinalized -> u_canister u ∈ subs s ->
    first_result e s s (inr (PCancel (e_caller e) key)).

Lemma init_first_inv e path sz s s1 x : init_upload_first e path sz s = (s1, x) -> first_result e s s1 x.
Proof.
  unfold init_upload_first. destruct (contains_path s path) eqn:C; [intros [= <- <-]; constructor|].
  destruct (_ <? _); intros [= <- <-]; constructor. exact C.
Qed.
Lemma store_first_inv e key s s1 x : store_chunk_first e key s = (s1, x) -> first_result e s s1 x.
Proof.
  unfold store_chunk_first. destruct (files s !! key) as [u|] eqn:F; [|intros [= <- <-]; constructor].
  destruct (u_state u) eqn:U; [| |intros [= <- <-]; constructor].
  all: destruct (bool_decide (u_canister u ∈ subs s)) eqn:B; intros [= <- <-].
  all: try (apply bool_decide_eq_true in B; econstructor; eauto; congruence).
  all: apply bool_decide_eq_false in B; econstructor; eauto; congruence.
Qed.
Lemma finalize_first_inv e key s s1 x : finalize_upload_first e key s = (s1, x) -> first_result e s s1 x.
Proof.
  unfold finalize_upload_first. destruct (files s !! key) as [u|] eqn:F; [|intros [= <- <-]; constructor].
  destruct (u_state u) eqn:U; [intros [= <- <-]; constructor| |intros [= <- <-]; constructor].
  all: destruct (bool_decide (u_canister u ∈ subs s)) eqn:B; intros [= <- <-].
  all: try (apply bool_decide_eq_true in B; econstructor; eauto; congruence).
  all: apply bool_decide_eq_false in B; econstructor; eauto; congruence.
Qed.
Lemma cancel_first_inv e key s s1 x : cancel_upload_first e key s = (s1, x) -> first_result e s s1 x.
Proof.
  unfold cancel_upload_first. destruct (files s !! key) as [u|] eqn:F; [|intros [= <- <-]; constructor].
  destruct (u_state u) eqn:U; [| |intros [= <- <-]; constructor].
  all: destruct (bool_decide (u_canister u ∈ subs s)) eqn:B; intros [= <- <-].
  all: try (apply bool_decide_eq_true in B; econstructor; eauto; congruence).
  all: apply bool_decide_eq_false in B; econstructor; eauto; congruence.
Qed.
