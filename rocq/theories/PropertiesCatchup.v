(** C106: the index catches up with its ledger. *)
From Verif Require Import Base ModelPrincipal ModelState ModelIndex SpecIndex ProofsPrincipal ProofsIndex PropertiesIndex.

(** A number of index rounds one after the other, each given by the message that starts it and what happens until it ends. *)
Fixpoint rounds_h (l : list (ienv * ihistory)) : ihistory :=
  match l with [] => [] | (e, h2) :: r => (e, IUpdate) :: h2 ++ rounds_h r end.
Fixpoint rounds_end (h : ihistory) (l : list (ienv * ihistory)) : Prop :=
  match l with [] => True | (e, h2) :: r => round_ends h e h2 /\ rounds_end (h ++ (e, IUpdate) :: h2) r end.

Lemma no_overlap_app h1 h2 : forall s, no_overlap (h1 ++ h2) s <-> no_overlap h1 s /\ no_overlap h2 (irun h1 s).
Proof. induction h1 as [|[e o] h1 IH]; intros s; simpl; [tauto|]. rewrite IH. tauto. Qed.

(** Every round that ends brings 100 blocks, or all there are: after n rounds the first 100 n blocks are indexed, whatever
    other calls came in between. *)
Theorem C106_rounds L H l : forall h,
  fair L 0 (h ++ rounds_h l) istart -> no_overlap (h ++ rounds_h l) istart -> rounds_end h l ->
  (forall i, understood (L i)) -> Forall (fun x => H <= i_height (fst x)) l -> H + 100 < two64 ->
  N.min (istatus (irun h istart) + 100 * nlen l) H <= istatus (irun (h ++ rounds_h l) istart).
Proof.
  induction l as [|[e h2] l IH]; intros h F N R U Hh Hb.
  - cbn. rewrite app_nil_r. unfold nlen. cbn. lia.
  - destruct R as [R1 R2]. apply Forall_cons in Hh. destruct Hh as [H1 Hh]. cbn [fst] in H1.
    assert (Ea : h ++ rounds_h ((e, h2) :: l) = (h ++ (e, IUpdate) :: h2) ++ rounds_h l).
    { cbn [rounds_h]. rewrite <- app_assoc. reflexivity. }
    rewrite Ea in F, N |- *. specialize (IH _ F N R2 U Hh Hb).
    apply fair_app in F. apply no_overlap_app in N. destruct F as [F _], N as [N _].
    assert (Mono : istatus (irun h istart) <= istatus (irun (h ++ (e, IUpdate) :: h2) istart)).
    { unfold istatus. apply fair_app in F. apply no_overlap_app in N.
      destruct (upd_run L h 0 istart (istart_ok L) (istart_upd L 0) (proj1 F) (proj1 N)) as [A B].
      pose proof (fair_ok L h 0 istart (istart_ok L) (proj1 F)) as O.
      destruct (upd_run L _ _ _ O A (proj2 F) (proj2 N)) as [_ C]. rewrite irun_app. exact C. }
    destruct (N.lt_ge_cases (istatus (irun h istart)) H) as [Lt|Ge].
    + pose proof (C57_progress_partial L h e h2 F N ltac:(intros; apply U) ltac:(lia) R1) as P. cbv zeta in P.
      unfold nlen in *. cbn [length]. lia.
    + lia.
Qed.
Print Assumptions C106_rounds.

(** ** The index left to itself *)

(** A ledger, with its archives, that answers every request honestly; [ans e t] is its answer to the waiting call [t]. *)
Definition reliable (L : chain) (ans : ienv -> task -> ireply) : Prop :=
  forall e t, k_chunks t <> [] -> honest L (i_height e) t (ans e t) /\ ans e t <> RFail.

(** Answer the waiting call, or start a round if there is none. *)
Definition next_op (ans : ienv -> task -> ireply) (e : ienv) (s : istate) : iop :=
  match map_to_list (x_tasks s) with [] => IUpdate | (id, t) :: _ => IReply id (ans e t) end.
Fixpoint solo (ans : ienv -> task -> ireply) (env : nat -> ienv) (k n : nat) (s : istate) : ihistory :=
  match n with
  | O => []
  | S n' => let o := next_op ans (env k) s in
            (env k, o) :: solo ans env (S k) n' (fst (istep (i_now (env k)) o s))
  end.

Lemma solo_app ans env a b : forall k s,
  solo ans env k (a + b) s = solo ans env k a s ++ solo ans env (k + a) b (irun (solo ans env k a s) s).
Proof.
  induction a as [|a IH]; intros k s; cbn [plus solo app irun]; [rewrite Nat.add_0_r; reflexivity|].
  rewrite IH. replace (S k + a)%nat with (k + S a)%nat by lia. reflexivity.
Qed.

Lemma receive_shape now id t r s s' a : receive now id t r s = Some (s', a) -> k_chunks t <> [] ->
  (exists t', x_tasks s' = <[id := t']> (x_tasks s) /\ k_kind t' = k_kind t /\ k_chunks t' <> [] /\ a = IWait id) \/
  (x_tasks s' = delete id (x_tasks s) /\ forall n, k_kind t = KUpdate n -> a = INone).
Proof.
  intros E C.
  assert (Nx : forall got s, next_chunk id t got s = Some (s', a) ->
    (exists t', x_tasks s' = <[id := t']> (x_tasks s) /\ k_kind t' = k_kind t /\ k_chunks t' <> [] /\ a = IWait id) \/
    (x_tasks s' = delete id (x_tasks s) /\ forall n, k_kind t = KUpdate n -> a = INone)).
  { clear. intros got s. unfold next_chunk. destruct (tail (k_chunks t)) as [|c l] eqn:T.
    - unfold finish. destruct (k_kind t) as [n|d].
      + destruct (add_blocks _ _ _) as [[n' ix]|]; [|discriminate]. intros H. injection H as <- <-. right. split; [reflexivity|auto].
      + intros H. injection H as <- <-. right. split; [reflexivity|discriminate].
    - intros H. injection H as <- <-. left. eexists. split; [reflexivity|]. cbn. split; [reflexivity|]. split; [discriminate|reflexivity]. }
  unfold receive in E. destruct (k_arch t) as [|x [|y rest]], r as [[|z arch] bs|bs|]; try discriminate.
  - destruct (insert_values _ _ _); [|discriminate]. apply Nx in E. exact E.
  - injection E as <- <-. left. eexists. split; [reflexivity|]. auto.
  - destruct (insert_values _ _ _); [|discriminate]. apply Nx in E. exact E.
  - destruct (insert_values _ _ _); [|discriminate]. injection E as <- <-. left. eexists. split; [reflexivity|]. auto.
Qed.

Section Solo.
  Context (L : chain) (ans : ienv -> task -> ireply) (env : nat -> ienv).
  Context (An : reliable L ans) (Und : forall i, understood (L i) /\ encodable (L i) = true).
  Context (Hts : forall k, i_height (env k) <= i_height (env (S k)) < two64).

  (** A history that is in order, at the [k]-th message. *)
  Definition ready (p : ihistory) (k : nat) : Prop :=
    fair L 0 p istart /\ no_overlap p istart /\ last_height 0 p <= i_height (env k).

  Lemma env_64 k : i_height (env k) < two64.
  Proof using Hts. specialize (Hts k). lia. Qed.

  Lemma last_height_snoc H p e o : last_height H (p ++ [(e, o)]) = i_height e.
  Proof using. clear. revert H. induction p as [|[e' o'] p IH]; intros H; [reflexivity|]. apply IH. Qed.

  Lemma ready_next p k o : ready p k -> typed o ->
    (forall id rp t, o = IReply id rp -> x_tasks (irun p istart) !! id = Some t -> honest L (i_height (env k)) t rp) ->
    (o = IUpdate -> ~ updating (irun p istart)) -> ready (p ++ [(env k, o)]) (S k).
  Proof using Hts.
    intros (F & N & Hl) T Hh Hu. split; [|split].
    - apply fair_app. split; [exact F|]. split; [split; [exact Hl|apply env_64]|]. split; [exact T|]. split; [exact Hh|exact I].
    - apply no_overlap_app. split; [exact N|]. split; [exact Hu|exact I].
    - rewrite last_height_snoc. apply Hts.
  Qed.

  Lemma wait_ends a b : forall t p k id n, (length (open_chunks t) < a)%nat -> (length (k_arch t) < b)%nat ->
    ready p k -> x_tasks (irun p istart) = {[id := t]} -> k_kind t = KUpdate n -> k_chunks t <> [] ->
    exists m h2 e r t', solo ans env k (S m) (irun p istart) = h2 ++ [(e, IReply id r)] /\
      x_tasks (irun (p ++ h2) istart) !! id = Some t' /\
      snd (istep (i_now e) (IReply id r) (irun (p ++ h2) istart)) = INone /\
      ready (p ++ h2 ++ [(e, IReply id r)]) (k + S m) /\ x_tasks (irun (p ++ h2 ++ [(e, IReply id r)]) istart) = ∅.
  Proof using An Und Hts.
    revert b. induction a as [|a IHa]; [intros; lia|]. intros b. induction b as [|b IHb]; [intros; lia|].
    intros t p k id n La Lb R Et Ek Ec.
    assert (En : next_op ans (env k) (irun p istart) = IReply id (ans (env k) t)).
    { unfold next_op. rewrite Et, map_to_list_singleton. reflexivity. }
    destruct (An (env k) t Ec) as [Ah Af].
    assert (R' : ready (p ++ [(env k, IReply id (ans (env k) t))]) (S k)).
    { apply ready_next; [exact R|exact I| |discriminate]. intros id' rp t' E Et'. injection E as <- <-.
      rewrite Et, lookup_singleton in Et'. injection Et' as <-. exact Ah. }
    assert (Lk : x_tasks (irun p istart) !! id = Some t) by (rewrite Et; apply lookup_singleton).
    destruct (C57_reply_accepted_partial L p (env k) id _ t (proj1 R') Lk Af (fun i _ => Und i)) as [Nt Lw]. cbv zeta in Nt, Lw.
    set (st := istep (i_now (env k)) (IReply id (ans (env k) t)) (irun p istart)) in *.
    assert (Est : exists s' a, receive (i_now (env k)) id t (ans (env k) t) (irun p istart) = Some (s', a) /\ st = (s', a)).
    { unfold st in *. cbn [istep] in *. rewrite Lk in *. destruct (receive _ _ _ _ _) as [[s' x]|]; [eauto|]. cbn in Nt. congruence. }
    destruct Est as (s' & x & Er & Est).
    assert (Erun : irun (p ++ [(env k, IReply id (ans (env k) t))]) istart = s').
    { rewrite irun_app. cbn [irun]. fold st. rewrite Est. reflexivity. }
    destruct (receive_shape _ _ _ _ _ _ _ Er Ec) as [(t' & T1 & T2 & T3 & ->)|(T1 & T2)].
    - assert (T1' : x_tasks s' = {[id := t']}) by (rewrite T1, Et; apply insert_singleton).
      assert (W : less_work (work t') (work t)) by (apply Lw; rewrite Est; cbn [fst]; rewrite T1'; apply lookup_singleton).
      assert (Ex : exists m h2 e r t2, solo ans env (S k) (S m) s' = h2 ++ [(e, IReply id r)] /\
        x_tasks (irun ((p ++ [(env k, IReply id (ans (env k) t))]) ++ h2) istart) !! id = Some t2 /\
        snd (istep (i_now e) (IReply id r) (irun ((p ++ [(env k, IReply id (ans (env k) t))]) ++ h2) istart)) = INone /\
        ready ((p ++ [(env k, IReply id (ans (env k) t))]) ++ h2 ++ [(e, IReply id r)]) (S k + S m) /\
        x_tasks (irun ((p ++ [(env k, IReply id (ans (env k) t))]) ++ h2 ++ [(e, IReply id r)]) istart) = ∅).
      { rewrite <- Erun in T1' |- *. destruct W as [W|[W1 W2]]; cbn [work fst snd] in *.
        - apply (IHa (S (length (k_arch t'))) t' _ _ id n); auto; [lia|congruence].
        - apply (IHb t' _ _ id n); auto; [lia|lia|congruence]. }
      destruct Ex as (m & h2 & e & r & t2 & X1 & X2 & X3 & X4 & X5).
      exists (S m), ((env k, IReply id (ans (env k) t)) :: h2), e, r, t2.
      rewrite <- !app_assoc in X2, X3, X4, X5. cbn [app] in *.
      split. { cbn [solo]. rewrite En. f_equal. fold st. rewrite Est. cbn [fst]. exact X1. }
      split; [exact X2|]. split; [exact X3|]. split; [replace (k + S (S m))%nat with (S k + S m)%nat by lia; exact X4|exact X5].
    - exists 0%nat, [], (env k), (ans (env k) t), t. rewrite app_nil_r. cbn [app].
      split. { cbn [solo]. rewrite En. reflexivity. }
      split; [exact Lk|]. split. { fold st. rewrite Est. cbn. eapply T2; eauto. }
      split; [replace (k + 1)%nat with (S k) by lia; exact R'|]. rewrite Erun, T1, Et. apply delete_singleton.
  Qed.

  Lemma round_done p k : ready p k -> x_tasks (irun p istart) = ∅ -> istatus (irun p istart) + 100 < two64 ->
    exists m h2, solo ans env k (S m) (irun p istart) = (env k, IUpdate) :: h2 /\ round_ends p (env k) h2 /\
      ready (p ++ (env k, IUpdate) :: h2) (k + S m) /\ x_tasks (irun (p ++ (env k, IUpdate) :: h2) istart) = ∅.
  Proof using An Und Hts.
    intros R Et Hb.
    assert (En : next_op ans (env k) (irun p istart) = IUpdate).
    { unfold next_op. rewrite Et, map_to_list_empty. reflexivity. }
    assert (Nu : ~ updating (irun p istart)).
    { intros (id & t & n & X & _). rewrite Et, lookup_empty in X. discriminate. }
    assert (R' : ready (p ++ [(env k, IUpdate)]) (S k)) by (apply ready_next; [exact R|exact I|discriminate|auto]).
    set (s := irun p istart) in *. set (st := istep (i_now (env k)) IUpdate s).
    assert (Erun : irun (p ++ [(env k, IUpdate)]) istart = fst st).
    { rewrite irun_app. reflexivity. }
    assert (O : ok_state L (i_height (env k)) s).
    { eapply ok_state_mono; [apply R|]. apply (fair_ok L p 0 istart (istart_ok L)), R. }
    assert (Hr : Forall (fun i => i < two64) (range (x_last s) (add64 (x_last s) 100))) by apply range64.
    assert (Es : (st = (fst st, INone) /\ x_tasks (fst st) = ∅) \/
      (exists t, st = (fst st, IWait (x_next s)) /\ x_tasks (fst st) = {[x_next s := t]} /\ k_kind t = KUpdate (x_last s) /\ k_chunks t <> [])).
    { unfold st. cbn [istep]. unfold begin_fetch.
      destruct (chunk_requests (x_cache s) (range (x_last s) (add64 (x_last s) 100))) as [|c cs] eqn:C.
      - assert (G : good_blocks L (i_height (env k)) (cached_blocks (x_cache s) (range (x_last s) (add64 (x_last s) 100)))).
        { destruct (finish (KUpdate (x_last s)) (cached_blocks (x_cache s) (range (x_last s) (add64 (x_last s) 100))) s) as [[s1 a1]|] eqn:Fi.
          - eapply begin_cases; [apply O|exact Hr|]. unfold begin_fetch. rewrite C. exact Fi.
          - apply cached_good, O. }
        destruct (finish_some L (i_height (env k)) (KUpdate (x_last s)) _ s ltac:(pose proof (env_64 k); lia) G (fun i _ => proj1 (Und i))) as [[s1 a1] Fi].
        rewrite Fi. left. unfold finish in Fi. destruct (add_blocks _ _ _) as [[n' ix]|]; [|discriminate].
        injection Fi as <- <-. split; [reflexivity|]. cbn. exact Et.
      - right. eexists. split; [reflexivity|]. cbn [or_trap fst x_tasks]. rewrite Et. split; [reflexivity|]. split; [reflexivity|].
        cbn. discriminate. }
    destruct Es as [[E1 E2]|(t & E1 & E2 & E3 & E4)].
    - exists 0%nat, []. split. { cbn [solo]. rewrite En. reflexivity. }
      split. { left. split; [reflexivity|]. fold s. fold st. rewrite E1. reflexivity. }
      split; [replace (k + 1)%nat with (S k) by lia; exact R'|]. rewrite Erun. exact E2.
    - rewrite <- Erun in E2.
      destruct (wait_ends (S (length (open_chunks t))) (S (length (k_arch t))) t _ (S k) (x_next s) (x_last s)
        ltac:(lia) ltac:(lia) R' E2 E3 E4) as (m & h2 & e & r & t' & X1 & X2 & X3 & X4 & X5).
      exists (S m), (h2 ++ [(e, IReply (x_next s) r)]). rewrite <- !app_assoc in X2, X3, X4, X5. cbn [app] in *.
      split. { cbn [solo]. rewrite En. f_equal. fold st. rewrite <- Erun. exact X1. }
      split. { right. exists (x_next s), h2, e, r, t'. split; [reflexivity|]. fold s. fold st. split; [rewrite E1; reflexivity|]. auto. }
      split; [replace (k + S (S m))%nat with (S k + S m)%nat by lia; exact X4|exact X5].
  Qed.

  Lemma reaches H d : forall p k, ready p k -> x_tasks (irun p istart) = ∅ -> H + 100 < two64 -> H <= i_height (env k) ->
    (N.to_nat (H - istatus (irun p istart)) < d)%nat ->
    exists n, H <= istatus (irun (p ++ solo ans env k n (irun p istart)) istart) /\
      ready (p ++ solo ans env k n (irun p istart)) (k + n).
  Proof using An Und Hts.
    induction d as [|d IH]; [intros; lia|]. intros p k R Et Hb Hk Hd.
    destruct (N.lt_ge_cases (istatus (irun p istart)) H) as [Lt|Ge].
    2: { exists 0%nat. cbn [solo]. rewrite app_nil_r, Nat.add_0_r. split; [exact Ge|exact R]. }
    destruct (round_done p k R Et ltac:(lia)) as (m & h2 & S1 & S2 & S3 & S4).
    pose proof (C57_progress_partial L p (env k) h2 (proj1 S3) (proj1 (proj2 S3)) (fun i _ => proj1 (Und i)) ltac:(lia) S2) as P.
    cbv zeta in P.
    assert (Hm : i_height (env k) <= i_height (env (k + S m))).
    { clear -Hts. induction m as [|m IHm]; [replace (k + 1)%nat with (S k) by lia; apply Hts|].
      replace (k + S (S m))%nat with (S (k + S m)) by lia. specialize (Hts (k + S m)). lia. }
    destruct (IH _ _ S3 S4 Hb ltac:(lia) ltac:(lia)) as (n & N1 & N2).
    exists (S m + n)%nat. rewrite solo_app, S1.
    assert (Er : irun ((env k, IUpdate) :: h2) (irun p istart) = irun (p ++ (env k, IUpdate) :: h2) istart) by (rewrite irun_app; reflexivity).
    rewrite Er. rewrite <- app_assoc in N1, N2. replace (k + (S m + n))%nat with (k + S m + n)%nat by lia. auto.
  Qed.
End Solo.

(** With a ledger that answers, the index left to itself reaches every height the ledger has: after finitely many messages it
    lists every block below [H] under everything that block is about. *)
Theorem C106_catches_up L h ans env H :
  fair L 0 h istart -> no_overlap h istart -> x_tasks (irun h istart) = ∅ ->
  last_height 0 h <= i_height (env 0%nat) -> (forall k, i_height (env k) <= i_height (env (S k)) < two64) ->
  H <= i_height (env 0%nat) -> H + 100 < two64 ->
  reliable L ans -> (forall i, understood (L i) /\ encodable (L i) = true) ->
  exists n, let s := irun (h ++ solo ans env 0 n (irun h istart)) istart in
    H <= istatus s /\ forall i k, i < H -> about (L i) k -> i ∈ listed s k.
Proof.
  intros F N Et Hl Hts HH Hb An Und.
  destruct (reaches L ans env An Und Hts H (S (N.to_nat (H - istatus (irun h istart)))) h 0%nat) as (n & A & B); auto.
  { split; [exact F|]. split; [exact N|exact Hl]. }
  exists n. cbv zeta. split; [exact A|]. intros i k Hi Hk. destruct B as (B1 & B2 & _).
  destruct (C55_index_exact L _ B1 B2) as (C & _ & _). apply C. split; [lia|exact Hk].
Qed.
Print Assumptions C106_catches_up.

(** A ledger that keeps the blocks below 100 in an archive, and 250 mints. *)
Definition plain_answer (L : chain) (e : ienv) (t : task) : ireply :=
  match k_arch t, k_chunks t with
  | a :: _, _ => RArchive (map (fun i => (i, L i)) (ids_of a))
  | [], (s, n) :: _ =>
      if N.min (s + n) (i_height e) <=? 100
      then RLedger [[(s, N.min (s + n) (i_height e) - s)]] []
      else RLedger [] (map (fun i => (i, L i)) (range s (N.min (s + n) (i_height e))))
  | [], [] => RFail
  end.
Definition mints : chain := fun _ => blk "7mint" [("tid", VNat 5); ("to", ptext p1)]%string.

Lemma plain_reliable L : reliable L (plain_answer L).
Proof.
  intros e t Hc. unfold plain_answer. destruct (k_arch t) as [|a r] eqn:Ea.
  - destruct (k_chunks t) as [|[s n] cs] eqn:Ek; [congruence|]. destruct (_ <=? 100); (split; [|discriminate]).
    + exists s, n, cs. split; [exact Ea|]. split; [exact Ek|]. split; [|constructor]. unfold ids_of. cbn. rewrite !app_nil_r.
      destruct (N.le_gt_cases s (N.min (s + n) (i_height e))) as [Hle|Hgt].
      * replace (s + (N.min (s + n) (i_height e) - s)) with (N.min (s + n) (i_height e)) by lia. reflexivity.
      * assert (X : forall a b, b <= a -> range a b = []).
        { intros x y Hxy. destruct (range x y) as [|z l] eqn:E; [reflexivity|]. exfalso.
          assert (I : z ∈ range x y) by (rewrite E; left). apply elem_of_range in I. lia. }
        rewrite !X by lia. reflexivity.
    + exists s, n, cs. split; [exact Ea|]. split; [exact Ek|]. cbn. split; [rewrite map_map, map_id; reflexivity|].
      apply Forall_map, Forall_true. reflexivity.
  - split; [|discriminate]. exists a, r. split; [exact Ea|]. reflexivity.
Qed.

Example C106_example :
  let env := fun k : nat => at_ (N.of_nat k) 250 in
  reliable mints (plain_answer mints) /\ (forall i, understood (mints i) /\ encodable (mints i) = true) /\
  map (fun n => istatus (irun (solo (plain_answer mints) env 0 n istart) istart)) [1; 2; 3; 5; 7; 8]%nat = [0; 0; 100; 200; 250; 250] /\
  nlen (listed (irun (solo (plain_answer mints) env 0 8 istart) istart) (KToken 5)) = 250.
Proof.
  cbv zeta. split; [apply plain_reliable|]. split.
  - intros i. split; [|reflexivity]. apply enterable_understood. split; [vm_compute; discriminate|].
    assert (E : keys_of (mints i) = [KAccount (p1, default_sub); KType "7mint"; KToken 5]%string) by (vm_compute; reflexivity).
    rewrite E. repeat constructor.
  - split; vm_compute; reflexivity.
Qed.

(** Two rounds, the first with an answer of the ledger alone, the second with one of an archive: the bound of [C106_rounds] for
    the two blocks that were there when the first began. *)
Example C106_rounds_example :
  let l := [(at_ 10 2, [(at_ 11 2, IReply 0 (RLedger [] [(1, chain1 1); (0, chain1 0)]))]);
            (at_ 20 3, [(at_ 21 3, IReply 1 (RLedger [[(2, 1)]] [])); (at_ 22 3, IReply 1 (RArchive [(2, chain1 2)]))])] in
  fair chain1 0 ([] ++ rounds_h l) istart /\ no_overlap ([] ++ rounds_h l) istart /\ rounds_end [] l /\
  (forall i, understood (chain1 i)) /\ Forall (fun x => 2 <= i_height (fst x)) l /\ 2 + 100 < two64 /\
  istatus (irun [] istart) = 0 /\ istatus (irun ([] ++ rounds_h l) istart) = 3.
Proof.
  cbv zeta. split; [exact rounds_fair|]. split; [exact rounds_no_overlap|]. split.
  - split; [|split; [|exact Logic.I]]; right.
    + eexists 0, [], (at_ 11 2), (RLedger [] [(1, chain1 1); (0, chain1 0)]), _.
      split; [reflexivity|]. split; [vm_compute; reflexivity|]. split; [vm_compute; reflexivity|]. vm_compute. reflexivity.
    + eexists 1, [(at_ 21 3, IReply 1 (RLedger [[(2, 1)]] []))], (at_ 22 3), (RArchive [(2, chain1 2)]), _.
      split; [reflexivity|]. split; [vm_compute; reflexivity|]. split; [vm_compute; reflexivity|]. vm_compute. reflexivity.
  - split.
    + assert (U : forall v, v = chain1 0 \/ v = chain1 1 \/ v = chain1 2 \/ v = chain1 3 -> understood v).
      { intros v Hv. apply enterable_understood. destruct Hv as [->|[->|[->| ->]]]; (split; [vm_compute; discriminate|]);
          match goal with |- Forall _ (keys_of ?v) => let k := eval vm_compute in (keys_of v) in change (keys_of v) with k end;
          repeat constructor. }
      intros i. apply U. unfold chain1. destruct (i =? 0); [left; reflexivity|]. destruct (i =? 1); [right; left; reflexivity|].
      destruct (i =? 2); [do 2 right; left; reflexivity|do 3 right; reflexivity].
    + split; [repeat constructor; vm_compute; discriminate|]. split; [reflexivity|]. split; vm_compute; reflexivity.
Qed.
