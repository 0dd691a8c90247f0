(** What the index canister keeps in stable memory reads back as it was, after any history: C138. *)
From Verif Require Import Base ModelPrincipal ModelState ModelIndex ModelCodec SpecIndex ProofsPrincipal ProofsIndex ProofsCodec
  PropertiesCodec PropertiesText PropertiesIndex.
Local Open Scope N_scope.

(** Messages as the interface types them: times fit 64 bits; texts in blocks are UTF-8, keys of maps ascend, lengths fit 64
    bits.  The replies need not be honest. *)
Definition typed_block (b : block) : Prop := wf_value (snd b).
Definition typed_imsg (x : ienv * iop) : Prop :=
  i_now (fst x) < two64 /\
  match snd x with
  | IReply _ (RLedger _ bs) => Forall typed_block bs
  | IReply _ (RArchive bs) => Forall typed_block bs
  | _ => True
  end.

(** The key of the index a key in memory stands for. *)
Definition stands_for (r : rawkey) (k : ikey) : Prop :=
  match r, k with
  | RAccount a, KAccount x => x = akey a
  | RType s, KType x => x = s
  | RToken n, KToken x => x = n
  | _, _ => False
  end.

Definition kept_key (k : ikey) : Prop := exists r b, stands_for r k /\ wf_key r /\ enc_key r = Some b.
Definition kept_index (ix : index) : Prop := forall k l, ix !! k = Some l -> kept_key k /\ Forall (fun x => x < two64) l.
Definition kept_cache (c : cache) : Prop :=
  forall i ts v, c !! i = Some (ts, v) -> i < two64 /\ ts < two64 /\ wf_value v /\ encodable v = true.
Definition kept (s : istate) : Prop :=
  kept_index (x_index s) /\ kept_cache (x_cache s) /\ forall id t, x_tasks s !! id = Some t -> Forall typed_block (k_direct t).

Lemma kept_push id ix k ix' : id < two64 -> kept_key k \/ (exists n, k = KToken n) -> kept_index ix ->
  push_front id (Some ix) k = Some ix' -> kept_index ix'.
Proof.
  intros L K H. unfold push_front. destruct (match k with KToken n => n <? two64 | _ => true end) eqn:E; [|discriminate].
  intros X. injection X as <-. intros k' l. rewrite lookup_insert_Some. intros [[<- <-]|[N X]]; [|eauto]. split.
  - destruct K as [K|[n ->]]; [exact K|]. exists (RToken n), (enc_array 2 ++ enc_u64 2 ++ enc_array 1 ++ enc_u64 n).
    splits; [reflexivity|exact I|]. cbn [enc_key]. unfold enc_nat. rewrite E. reflexivity.
  - constructor; [exact L|]. destruct (ix !! k) as [l|] eqn:El; [|constructor]. apply (H k l El).
Qed.

Lemma fold_push_none id ks : fold_left (push_front id) ks None = None.
Proof. induction ks; auto. Qed.

Lemma kept_pushes id ks : forall ix ix', id < two64 -> (forall k, k ∈ ks -> kept_key k \/ exists n, k = KToken n) -> kept_index ix ->
  fold_left (push_front id) ks (Some ix) = Some ix' -> kept_index ix'.
Proof.
  induction ks as [|k ks IH]; intros ix ix' L K H; cbn [fold_left]; [intros X; injection X as <-; exact H|].
  destruct (push_front id (Some ix) k) as [ix1|] eqn:E; [|rewrite fold_push_none; discriminate]. intros X.
  eapply IH; [exact L| |eapply kept_push; [exact L| |exact H|exact E]|exact X].
  - intros k' I. apply K. right. exact I.
  - apply K. left.
Qed.

Lemma kept_entry_keys b d k : k ∈ entry_keys b d -> kept_key k \/ exists n, k = KToken n.
Proof.
  unfold entry_keys. intros I. apply elem_of_app in I. destruct I as [I|I]; [left|apply elem_of_app in I; destruct I as [I|I]; [left|right]].
  - apply elem_of_list_fmap in I. destruct I as (a & -> & I). unfold extract_accounts in I. destruct (tx_map d) as [t|]; [|apply elem_of_nil in I; destruct I].
    apply elem_of_list_In, in_concat in I. destruct I as (l & I & J). apply in_map_iff in I. destruct I as (f & <- & _).
    unfold named_account in J. destruct (vget t f) as [[|s| | | |]|]; try destruct J.
    destruct (principal_parse s) as [p|] eqn:P; [|destruct J]. destruct J as [<-|[]]. apply principal_parse_inv in P. destruct P as [_ P].
    exists (RAccount (mkAcc p None)), (enc_array 2 ++ enc_u64 0 ++ enc_array 1 ++ enc_account (mkAcc p None)).
    splits; [reflexivity| |reflexivity]. split; [cbn; unfold nlen; lia|discriminate].
  - apply elem_of_list_singleton in I. subst k. eexists (RType (btype_text b)), _. splits; [reflexivity| |reflexivity].
    destruct b; split; vm_compute; reflexivity.
  - destruct (extract_token_id b d) as [n|]; [|apply elem_of_nil in I; destruct I]. apply elem_of_list_singleton in I. eauto.
Qed.

Lemma kept_adds l : forall n ix n' ix', kept_index ix -> add_blocks l n ix = Some (n', ix') -> kept_index ix'.
Proof.
  induction l as [|b l IH]; intros n ix n' ix' H; cbn [add_blocks]; [intros X; injection X as _ <-; exact H|].
  unfold add_block_to_index. destruct (block_type (snd b)) as [ty|]; [|intros X; injection X as _ <-; exact H].
  destruct (fst b <? two64) eqn:L; [|discriminate]. apply N.ltb_lt in L.
  destruct (fold_left _ _ _) as [ix1|] eqn:F; [|discriminate]. apply IH.
  eapply kept_pushes; [exact L| |exact H|exact F]. apply kept_entry_keys.
Qed.

Lemma kept_insert now l : forall c c', now < two64 -> Forall typed_block l -> kept_cache c -> insert_values now l c = Some c' -> kept_cache c'.
Proof.
  induction l as [|[i v] l IH]; intros c c' T F H; cbn [insert_values]; [intros X; injection X as <-; exact H|].
  apply Forall_cons in F. destruct F as [Fv F].
  destruct (i <? two64) eqn:L; [|apply IH; assumption]. destruct (encodable v) eqn:E; [|discriminate].
  apply IH; [exact T|exact F|]. intros j ts w. rewrite lookup_insert_Some. intros [[<- X]|[N X]]; [|eauto].
  injection X as <- <-. apply N.ltb_lt in L. splits; auto.
Qed.

Lemma kept_finish k got s s' a : kept s -> finish k got s = Some (s', a) -> kept s'.
Proof.
  intros (I & C & T). unfold finish. destruct k as [n|d]; [|intros X; injection X as <- _; (split; [|split]); assumption].
  destruct (add_blocks _ _ _) as [[n' ix]|] eqn:E; [|discriminate]. intros X; injection X as <- _.
  (split; [|split]); cbn; [eapply kept_adds; eauto|exact C|exact T].
Qed.

Lemma kept_begin k ids s s' a : kept s -> begin_fetch k ids s = Some (s', a) -> kept s'.
Proof.
  intros (I & C & T). unfold begin_fetch. destruct (chunk_requests _ _) as [|c cs]; [apply kept_finish; (split; [|split]); assumption|].
  intros X; injection X as <- _. (split; [|split]); cbn; [exact I|exact C|]. intros id t. rewrite lookup_insert_Some.
  intros [[_ <-]|[_ X]]; [constructor|eauto].
Qed.

Lemma kept_delete id s : kept s -> kept (set_tasks (delete id (x_tasks s)) s).
Proof. intros (I & C & T). (split; [|split]); cbn; [exact I|exact C|]. intros i t X. apply lookup_delete_Some in X. destruct X as [_ X]. eauto. Qed.

Lemma kept_set_cache c s : kept_cache c -> kept s -> kept (set_cache c s).
Proof. intros C (I & _ & T). (split; [|split]); cbn; assumption. Qed.

Lemma kept_wait id t s : Forall typed_block (k_direct t) -> kept s -> kept (set_tasks (<[id := t]> (x_tasks s)) s).
Proof.
  intros D (I & C & T). (split; [|split]); cbn; [exact I|exact C|]. intros i u. rewrite lookup_insert_Some. intros [[_ <-]|[_ X]]; eauto.
Qed.

Lemma kept_next id t got s s' a : kept s -> next_chunk id t got s = Some (s', a) -> kept s'.
Proof.
  intros K. unfold next_chunk. destruct (tail (k_chunks t)) as [|c cs].
  - apply kept_finish, kept_delete, K.
  - intros X; injection X as <- _. apply kept_wait; [constructor|exact K].
Qed.

Lemma kept_step e o s : typed_imsg (e, o) -> kept s -> kept (fst (istep (i_now e) o s)).
Proof.
  intros [Tn Tm] K. cbn [fst snd] in Tn, Tm.
  assert (O : forall s0 r, kept s0 -> (forall s' a, r = Some (s', a) -> kept s') -> kept (fst (or_trap s0 r))).
  { intros s0 [[s' a]|] K0 H; cbn; [eauto|exact K0]. }
  destruct o as [| |st len fs so|id r|]; cbn [istep].
  - apply O; [exact K|]. intros s' a. apply kept_begin, K.
  - unfold remove_all_values_older_than. destruct (existsb _ _); cbn; [exact K|]. apply kept_set_cache; [apply K|exact K].
  - apply O; [exact K|]. intros s' a. unfold get_blocks. destruct fs as [|f fs]; [apply kept_begin, K|].
    destruct (filter_page _ _ _); [apply kept_begin, K|discriminate].
  - destruct (x_tasks s !! id) as [t|] eqn:Et; [|exact K]. apply O; [apply kept_delete, K|].
    assert (D : Forall typed_block (k_direct t)) by (eapply K; exact Et).
    assert (Cc : kept_cache (x_cache s)) by apply K.
    intros s' a. unfold receive. destruct (k_arch t) as [|ar [|ar' rest]]; destruct r as [arch bs|bs|]; try discriminate.
    + destruct arch as [|x arch].
      * destruct (insert_values _ _ _) as [c|] eqn:E; [|discriminate]. apply kept_next, kept_set_cache; [|exact K].
        eapply kept_insert; [exact Tn|exact Tm|exact Cc|exact E].
      * intros X; injection X as <- _. apply kept_wait; [exact Tm|exact K].
    + destruct (insert_values _ _ _) as [c|] eqn:E; [|discriminate]. apply kept_next, kept_set_cache; [|exact K].
      eapply kept_insert; [exact Tn| |exact Cc|exact E]. apply Forall_app. split; assumption.
    + destruct (insert_values _ _ _) as [c|] eqn:E; [|discriminate]. intros X; injection X as <- _.
      apply (kept_wait _ _ (set_cache c s)); [exact D|]. apply kept_set_cache; [|exact K].
      eapply kept_insert; [exact Tn|exact Tm|exact Cc|exact E].
  - cbn. destruct K as (I & C & T). (split; [|split]); cbn; [exact I|exact C|]. intros id t X. rewrite lookup_empty in X. discriminate.
Qed.

Lemma kept_run h : forall s, Forall typed_imsg h -> kept s -> kept (irun h s).
Proof.
  induction h as [|[e o] h IH]; intros s F K; [exact K|]. apply Forall_cons in F. destruct F as [T F]. cbn [irun].
  apply IH; [exact F|]. apply kept_step; assumption.
Qed.

Lemma kept_start : kept istart.
Proof.
  split; [|split].
  - intros k l X. cbn in X. rewrite lookup_empty in X. discriminate X.
  - intros i ts v X. cbn in X. rewrite lookup_empty in X. discriminate X.
  - intros id t X. cbn in X. rewrite lookup_empty in X. discriminate X.
Qed.

(** Every entry of the index: its key and its list of blocks are what their bytes decode to, with nothing left over.  (A list of
    2^64 blocks would not fit into the memory of a canister.) *)
Theorem C138_index h k l : Forall typed_imsg h ->
  x_index (irun h istart) !! k = Some l -> nlen l < two64 ->
  exists r kb, stands_for r k /\ enc_key r = Some kb /\ dec_key kb = Some (r, []) /\ dec_ids (enc_ids l) = Some (l, []).
Proof.
  intros T E Len. destruct (kept_run h _ T kept_start) as (I & _ & _). destruct (I k l E) as ((r & kb & S & W & Ek) & F).
  exists r, kb. splits; [exact S|exact Ek| |].
  - rewrite <- (app_nil_r kb). apply C52_index_key; assumption.
  - rewrite <- (app_nil_r (enc_ids l)). apply C52_index_entry; [exact Len|]. rewrite Forall_forall in F. exact F.
Qed.
Print Assumptions C138_index.

(** Every cached block: its id fits the key, its bytes decode to the time and the content. *)
Theorem C138_cache h i ts v : Forall typed_imsg h ->
  x_cache (irun h istart) !! i = Some (ts, v) ->
  i < two64 /\ exists b, enc_entry (ts, v) = Some b /\ entry_from_bytes b = Some (ts, v).
Proof.
  intros T E. destruct (kept_run h _ T kept_start) as (_ & C & _). destruct (C i ts v E) as (L & Lt & W & En). split; [exact L|].
  destruct (enc_value v) as [c|] eqn:Ev; [|apply enc_value_encodable in Ev; congruence].
  assert (B : enc_entry (ts, v) = Some (le 8 ts ++ c)) by (unfold enc_entry; cbn [fst snd]; rewrite Ev; reflexivity).
  exists (le 8 ts ++ c). split; [exact B|]. rewrite <- (app_nil_r (le 8 ts ++ c)). apply C52_cache_entry; assumption.
Qed.
Print Assumptions C138_cache.

Definition octetsb (b : bytes) : bool := forallb (fun x => x <? 256) b.
Lemma octetsb_ok b : octetsb b = true -> octets b.
Proof. unfold octetsb. rewrite forallb_forall. intros H. apply Forall_forall. intros x I. apply N.ltb_lt, H, elem_of_list_In, I. Qed.

Example C138_example :
  Forall typed_imsg rounds /\
  x_index (irun rounds istart) !! KToken 5 = Some [1; 0] /\ dec_ids (enc_ids [1; 0]) = Some ([1; 0], []) /\
  x_cache (irun rounds istart) !! 2 = Some (22, chain1 2) /\
  (exists b, enc_entry (22, chain1 2) = Some b /\ length b = 53%nat).
Proof.
  split; [|splits; try (vm_compute; reflexivity)].
  - assert (W : forall i, typed_block (i, chain1 i)).
    { assert (D : forall v, octetsb (default [] (enc_value v)) = true -> value_from_bytes (default [] (enc_value v)) = Some v -> wf_value v).
      { intros v O E. apply (C52_decoded _ v (octetsb_ok _ O) E). }
      intros i. unfold typed_block, chain1. cbn [snd]. repeat case_match; apply D; vm_compute; reflexivity. }
    unfold rounds. repeat (apply Forall_cons; split); try (apply Forall_nil; exact I); (split; [vm_compute; reflexivity|]); cbn [snd];
      try exact I; repeat (apply Forall_cons; split); try apply W; apply Forall_nil; exact I.
  - eexists. split; vm_compute; reflexivity.
Qed.

(** What is read as a key has the form in which keys are written: an array of two, the number of the kind, an array of one. *)
Theorem C52_key_form b k r : dec_key b = Some (k, r) ->
  exists b1 tag b2 b3, dec_array b = Some (2, b1) /\ dec_u64 b1 = Some (tag, b2) /\ dec_array b2 = Some (1, b3) /\
    match k with
    | RAccount a => tag = 0 /\ dec_account b3 = Some (a, r)
    | RType s => tag = 1 /\ dec_str b3 = Some (s, r)
    | RToken n => tag = 2 /\ dec_nat b3 = Some (n, r)
    end.
Proof.
  unfold dec_key, bind, ret, fail. intros H.
  destruct (dec_array b) as [[n b1]|] eqn:E1; [|discriminate]. destruct (n =? 2) eqn:N2; [|discriminate].
  apply N.eqb_eq in N2. subst n. cbn [negb] in H.
  destruct (dec_u64 b1) as [[tag b2]|] eqn:E2; [|discriminate]. destruct (dec_array b2) as [[m b3]|] eqn:E3; [|discriminate].
  destruct (m =? 1) eqn:N1; [|discriminate]. apply N.eqb_eq in N1. subst m. cbn [negb] in H.
  exists b1, tag, b2, b3. split; [reflexivity|]. split; [exact E2|]. split; [exact E3|].
  destruct (tag =? 0) eqn:T0; [apply N.eqb_eq in T0|destruct (tag =? 1) eqn:T1; [apply N.eqb_eq in T1|
    destruct (tag =? 2) eqn:T2; [apply N.eqb_eq in T2|discriminate]]].
  - destruct (dec_account b3) as [[a x]|]; [|discriminate]. injection H as <- <-. auto.
  - destruct (dec_str b3) as [[a x]|]; [|discriminate]. injection H as <- <-. auto.
  - destruct (dec_nat b3) as [[a x]|]; [|discriminate]. injection H as <- <-. auto.
Qed.
Print Assumptions C52_key_form.

Example C52_key_form_example :
  dec_key [130; 2; 129; 5] = Some (RToken 5, []) /\ dec_key [129; 2; 129; 5] = None /\ dec_key [130; 2; 130; 5] = None /\
  dec_key [130; 3; 129; 5] = None.
Proof. splits; vm_compute; reflexivity. Qed.
