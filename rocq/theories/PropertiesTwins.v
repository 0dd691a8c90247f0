(** C157: two indexes of one ledger agree as far as both have read. *)
From Verif Require Import Base ModelPrincipal ModelState ModelIndex SpecIndex ProofsPrincipal ProofsIndex PropertiesIndex.

Lemma entries_add L k n d :
  exists newer, entries L k (n + N.of_nat d) = newer ++ entries L k n /\ Forall (fun i => n <= i) newer.
Proof.
  induction d as [|d (newer & E & F)].
  - exists []. rewrite N.add_0_r. split; [reflexivity|constructor].
  - replace (n + N.of_nat (S d)) with (n + N.of_nat d + 1) by lia. rewrite entries_succ, E, app_assoc. eexists. split; [reflexivity|].
    apply Forall_app. split; [|exact F]. apply Forall_forall. intros i I. apply elem_of_list_In, repeat_spec in I. subst. lia.
Qed.

(** Whatever the two did, in whatever order the replies came, whether archives were involved, what was asked of them: an index
    that has read no further than another lists under every key what the other lists, but for blocks that it has not read. *)
Theorem C157_behind L h h' :
  fair L 0 h istart -> no_overlap h istart -> fair L 0 h' istart -> no_overlap h' istart ->
  let s := irun h istart in let s' := irun h' istart in
  istatus s <= istatus s' ->
  forall k, exists newer, listed s' k = newer ++ listed s k /\ Forall (fun i => istatus s <= i) newer.
Proof.
  intros F N F' N' s s' Hle k.
  destruct (upd_run L h 0 istart (istart_ok L) (istart_upd L 0) F N) as [[_ [B _] _ _] _].
  destruct (upd_run L h' 0 istart (istart_ok L) (istart_upd L 0) F' N') as [[_ [B' _] _ _] _].
  fold s in B. fold s' in B'. unfold listed, istatus in *. rewrite B, B'.
  replace (x_last s') with (x_last s + N.of_nat (N.to_nat (x_last s' - x_last s))) by lia. apply entries_add.
Qed.
Print Assumptions C157_behind.

(** If both have read as far, they list the same, in the same order. *)
Theorem C157_lists L h h' :
  fair L 0 h istart -> no_overlap h istart -> fair L 0 h' istart -> no_overlap h' istart ->
  istatus (irun h istart) = istatus (irun h' istart) ->
  forall k, listed (irun h istart) k = listed (irun h' istart) k.
Proof.
  intros F N F' N' E k.
  destruct (upd_run L h 0 istart (istart_ok L) (istart_upd L 0) F N) as [[_ [B _] _ _] _].
  destruct (upd_run L h' 0 istart (istart_ok L) (istart_upd L 0) F' N') as [[_ [B' _] _ _] _].
  unfold listed, istatus in *. rewrite B, B', E. reflexivity.
Qed.
Print Assumptions C157_lists.

Lemma combined_same (ix ix' : index) f : (forall k, default [] (ix !! k) = default [] (ix' !! k)) -> combined_ids ix f = combined_ids ix' f.
Proof. intros E. unfold combined_ids. rewrite (map_ext _ _ E). reflexivity. Qed.

Lemma filtered_answer L h e a n f so h2 bs tot :
  fair L 0 (h ++ (e, IGet a n f so) :: h2) istart -> call_answer h e (IGet a n f so) h2 bs tot ->
  f <> [] -> a + n < two32 ->
  bs = values L (in_order (default false so) (firstn (N.to_nat n) (skipn (N.to_nat a) (combined_ids (x_index (irun h istart)) f)))).
Proof.
  intros F An Hf Hb. destruct (call_answer_spec _ _ _ _ _ _ _ _ _ _ F An) as (ids & got & cut & Eq & -> & Hg & P & Fc).
  set (s := irun h istart) in *.
  destruct f as [|k f]; [congruence|]. cbn [query_ids] in Eq. rewrite filter_page_spec in Eq by exact Hb. injection Eq as <-.
  assert (cut = []) as ->.
  { destruct cut as [|i cut]; [reflexivity|exfalso]. inversion Fc as [|? ? Hi _]; subst.
    assert (I : i ∈ firstn (N.to_nat n) (skipn (N.to_nat a) (combined_ids (x_index s) (k :: f)))).
    { rewrite <- P. apply elem_of_app. right. left. }
    assert (I2 : i ∈ combined_ids (x_index s) (k :: f)).
    { rewrite <- (firstn_skipn (N.to_nat a)). apply elem_of_app. right. rewrite <- (firstn_skipn (N.to_nat n)).
      apply elem_of_app. left. exact I. }
    rewrite combined_in in I2 by discriminate. specialize (I2 k ltac:(left)).
    apply fair_app in F. destruct F as [F1 (Hl & _)]. pose proof (fair_ok L h 0 istart (istart_ok L) F1) as O.
    apply (os_index _ _ _ O) in I2. lia. }
  rewrite app_nil_r in P. eapply sort_good; [exact Hg|exact P|]. apply sorted_sub, combined_sorted.
Qed.

(** A filtered query gets the same blocks of both, whatever each had in its cache and however long each had to ask the ledger. *)
Theorem C157_filtered L h e h2 bs tot h' e' h2' bs' tot' a n f so :
  fair L 0 (h ++ (e, IGet a n f so) :: h2) istart -> no_overlap h istart -> call_answer h e (IGet a n f so) h2 bs tot ->
  fair L 0 (h' ++ (e', IGet a n f so) :: h2') istart -> no_overlap h' istart -> call_answer h' e' (IGet a n f so) h2' bs' tot' ->
  istatus (irun h istart) = istatus (irun h' istart) -> f <> [] -> a + n < two32 ->
  bs = bs'.
Proof.
  intros F N A F' N' A' E Hf Hb. rewrite (filtered_answer _ _ _ _ _ _ _ _ _ _ F A Hf Hb), (filtered_answer _ _ _ _ _ _ _ _ _ _ F' A' Hf Hb).
  apply fair_app in F as [F _]. apply fair_app in F' as [F' _].
  rewrite (combined_same (x_index (irun h istart)) (x_index (irun h' istart))); [reflexivity|].
  exact (C157_lists L h h' F N F' N' E).
Qed.
Print Assumptions C157_filtered.

(** An unfiltered query, too, within the blocks that the ledger has. *)
Theorem C157_unfiltered L h e h2 bs tot h' e' h2' bs' tot' a n so :
  fair L 0 (h ++ (e, IGet a n [] so) :: h2) istart -> call_answer h e (IGet a n [] so) h2 bs tot ->
  fair L 0 (h' ++ (e', IGet a n [] so) :: h2') istart -> call_answer h' e' (IGet a n [] so) h2' bs' tot' ->
  so <> Some true -> a + n <= i_height e -> a + n <= i_height e' -> bs = bs'.
Proof.
  intros F A F' A' S B B'. rewrite (C60_ascending _ _ _ _ _ _ _ _ _ F A S B), (C60_ascending _ _ _ _ _ _ _ _ _ F' A' S B'). reflexivity.
Qed.
Print Assumptions C157_unfiltered.

(** And so does the query for the newest blocks. *)
Theorem C157_newest L h e h2 bs tot h' e' h2' bs' tot' a n :
  fair L 0 (h ++ (e, IGet a n [] (Some true)) :: h2) istart -> no_overlap h istart -> call_answer h e (IGet a n [] (Some true)) h2 bs tot ->
  fair L 0 (h' ++ (e', IGet a n [] (Some true)) :: h2') istart -> no_overlap h' istart ->
  call_answer h' e' (IGet a n [] (Some true)) h2' bs' tot' ->
  istatus (irun h istart) = istatus (irun h' istart) -> n <= istatus (irun h istart) -> bs = bs'.
Proof.
  intros F N A F' N' A' E B. pose proof (C60_descending_partial _ _ _ _ _ _ _ _ F N A B) as ->.
  rewrite E in B. pose proof (C60_descending_partial _ _ _ _ _ _ _ _ F' N' A' B) as ->. rewrite E. reflexivity.
Qed.
Print Assumptions C157_newest.

(** Without the condition that a round of reading begins only when the last is over, two indexes that have read as far can
    differ: one of them lists a block twice. *)
Theorem C157_overlap_refuted : exists L h h', fair L 0 h istart /\ no_overlap h istart /\ fair L 0 h' istart /\
  istatus (irun h istart) = istatus (irun h' istart) /\ exists k, listed (irun h istart) k <> listed (irun h' istart) k.
Proof.
  exists chain1, [(at_ 10 1, IUpdate); (at_ 11 1, IReply 0 (RLedger [] [(0, chain1 0)]))],
    [(at_ 10 1, IUpdate); (at_ 11 1, IUpdate); (at_ 12 1, IReply 0 (RLedger [] [(0, chain1 0)]));
     (at_ 13 1, IReply 1 (RLedger [] [(0, chain1 0)]))].
  split; [|split; [|split; [|split]]].
  - fair_step. fair_step; [|exact I].
    do 3 eexists. split; [reflexivity|]. split; [reflexivity|]. split; [|repeat constructor]. reflexivity.
  - do 2 overlap_step. exact I.
  - fair_step. fair_step. fair_step.
    { do 3 eexists. split; [reflexivity|]. split; [reflexivity|]. split; [|repeat constructor]. reflexivity. }
    fair_step; [|exact I].
    do 3 eexists. split; [reflexivity|]. split; [reflexivity|]. split; [|repeat constructor]. reflexivity.
  - vm_compute. reflexivity.
  - exists (KToken 5). vm_compute. discriminate.
Qed.
Print Assumptions C157_overlap_refuted.

(** One index reads three blocks in two rounds, with an archive; the other reads them at once: they list the same. *)
Definition at_once : ihistory :=
  [(at_ 40 3, IUpdate); (at_ 41 3, IReply 0 (RLedger [] [(0, chain1 0); (1, chain1 1); (2, chain1 2)]))].
Example C157_example :
  fair chain1 0 rounds istart /\ no_overlap rounds istart /\ fair chain1 0 at_once istart /\ no_overlap at_once istart /\
  istatus (irun rounds istart) = 3 /\ istatus (irun at_once istart) = 3 /\
  listed (irun rounds istart) (KToken 5) = [1; 0] /\ listed (irun at_once istart) (KToken 5) = [1; 0] /\
  istatus (irun (take 2 rounds) istart) = 2 /\
  call_answer rounds (at_ 30 3) (IGet 1 5 [KToken 5; KAccount (p1, default_sub)] None) [] [(1, chain1 1)] 3 /\
  call_answer at_once (at_ 50 3) (IGet 1 5 [KToken 5; KAccount (p1, default_sub)] None) [] [(1, chain1 1)] 3.
Proof.
  split; [exact rounds_fair|]. split; [exact rounds_no_overlap|]. split.
  { unfold at_once. fair_step. fair_step; [|exact I].
    do 3 eexists. split; [reflexivity|]. split; [reflexivity|]. split; [|repeat constructor]. reflexivity. }
  split; [unfold at_once; do 2 overlap_step; exact I|].
  do 5 (split; [vm_compute; reflexivity|]). split; [apply C58_example|].
  left. split; [reflexivity|]. vm_compute. reflexivity.
Qed.

(** The two indexes asked for blocks 1 and 2, and for the two newest blocks. *)
Example C157_reads_example :
  fair chain1 0 (rounds ++ [(at_ 30 3, IGet 1 2 [] None)]) istart /\ fair chain1 0 (at_once ++ [(at_ 50 3, IGet 1 2 [] None)]) istart /\
  call_answer rounds (at_ 30 3) (IGet 1 2 [] None) [] (values chain1 [1; 2]) 3 /\
  call_answer at_once (at_ 50 3) (IGet 1 2 [] None) [] (values chain1 [1; 2]) 3 /\
  fair chain1 0 (rounds ++ [(at_ 30 3, IGet 0 2 [] (Some true))]) istart /\
  fair chain1 0 (at_once ++ [(at_ 50 3, IGet 0 2 [] (Some true))]) istart /\
  call_answer rounds (at_ 30 3) (IGet 0 2 [] (Some true)) [] (values chain1 [2; 1]) 3 /\
  call_answer at_once (at_ 50 3) (IGet 0 2 [] (Some true)) [] (values chain1 [2; 1]) 3.
Proof.
  destruct C157_example as (F & _ & F' & _).
  assert (X : forall h e o, fair chain1 0 h istart -> last_height 0 h <= i_height e < two64 -> typed o -> (forall id rp, o <> IReply id rp) ->
    fair chain1 0 (h ++ [(e, o)]) istart).
  { intros h e o Fh Hh Ty No. apply fair_app. split; [exact Fh|]. cbn. split; [exact Hh|]. split; [exact Ty|].
    split; [|exact Logic.I]. intros id rp t E. destruct (No _ _ E). }
  split; [apply X; [exact F|split; [vm_compute; discriminate|reflexivity]|vm_compute; auto|discriminate]|].
  split; [apply X; [exact F'|split; [vm_compute; discriminate|reflexivity]|vm_compute; auto|discriminate]|].
  split; [left; split; [reflexivity|vm_compute; reflexivity]|]. split; [left; split; [reflexivity|vm_compute; reflexivity]|].
  split; [apply X; [exact F|split; [vm_compute; discriminate|reflexivity]|vm_compute; auto|discriminate]|].
  split; [apply X; [exact F'|split; [vm_compute; discriminate|reflexivity]|vm_compute; auto|discriminate]|].
  split; left; (split; [reflexivity|vm_compute; reflexivity]).
Qed.
