(** C79, C80: the HTTP interface. *)
From Verif Require Import Base ModelPrincipal ModelState ModelIcrc7 ModelIcrc37 ModelManagement ModelLifecycle
  ModelQueries ModelStep ModelHttp ProofsItems ProofsManage ProofsMicro Spec ProofsCore ProofsUploads Scenario PropertiesUploads.

(** A history in which every iteration order is a permutation. *)
Definition orders_ok (l : list (env * op * (list (string * string) -> list (string * string)))) : Prop :=
  Forall (fun x => forall r, snd x r ≡ₚ r) l.

(** Both parts of the canister as they can occur. *)
Definition http_reachable (s : state) (h : http) : Prop :=
  exists caller url_ok a s0 l, init caller url_ok a = Some s0 /\ orders_ok l /\ http_run l s0 http_init = (s, h).

(** The platform vouches for an answer about [path]: its witness is the tree last certified and that tree has an entry for
    the path. *)
Definition vouched (path : string) (h : http) (r : response) : Prop :=
  match r with
  | RRedirect to w => h_certified h = Some w /\ t_redirects w !! path = Some to
  | RPage _ p w => h_certified h = Some w /\ p = path /\ path ∈ t_skips w
  | RFail => False
  end.

(** The reserved names. *)
Definition reserved (path : string) : Prop := path ∈ ["/logs"; "/traces"; "/metrics"]%string.

Lemma http_run_state l s h : fst (http_run l s h) = run (map fst l) s.
Proof. revert s h. induction l as [|[[e o] f] l IH]; intros s h; simpl; [reflexivity|apply IH]. Qed.

Lemma http_reachable_state s h : http_reachable s h -> reachable s.
Proof.
  intros (caller & url_ok & a & s0 & l & Hi & _ & Hr). exists caller, url_ok, a, s0, (map fst l).
  split; [exact Hi|]. pose proof (http_run_state l s0 http_init) as E. rewrite Hr in E. exact E.
Qed.

(** The router knows exactly the stored redirections, and what it knows is certified. *)
Definition router_inv (s : state) (h : http) : Prop :=
  t_redirects (h_tree h) = redirs s /\ (redirs s <> ∅ -> h_certified h = Some (h_tree h)).

Lemma readd_spec l : forall h,
  NoDup (map fst l) ->
  let h' := foldl (fun h kv => add_redirection (fst kv) (snd kv) h) h l in
  t_redirects (h_tree h') = list_to_map l ∪ t_redirects (h_tree h) /\ t_skips (h_tree h') = t_skips (h_tree h) /\
  (l <> [] -> h_certified h' = Some (h_tree h')) /\ (l = [] -> h' = h).
Proof.
  induction l as [|[k v] l IH]; intros h ND; simpl.
  - rewrite (left_id_L ∅ (∪)). splits; auto. intros X. exfalso. apply X. reflexivity.
  - apply NoDup_cons in ND. destruct ND as [N1 N2]. destruct (IH (add_redirection k v h) N2) as (A & B & C & D).
    splits; [|exact B| |discriminate].
    + rewrite A. simpl. rewrite <- insert_union_l. rewrite <- insert_union_r; [reflexivity|].
      apply not_elem_of_list_to_map_1. exact N1.
    + intros _. destruct l as [|x l]; [rewrite D by reflexivity; reflexivity|apply C; discriminate].
Qed.

Lemma http_upgrade_spec order r h :
  (forall l, order l ≡ₚ l) ->
  let h' := http_upgrade order r h in
  t_redirects (h_tree h') = r /\ t_skips (h_tree h') = ∅ /\
  (r <> ∅ -> h_certified h' = Some (h_tree h')) /\ (r = ∅ -> h' = mkHttp empty_tree (h_certified h)).
Proof.
  intros Ho. unfold http_upgrade.
  assert (ND : NoDup (map fst (order (map_to_list r)))) by (rewrite Ho; apply NoDup_fst_map_to_list).
  destruct (readd_spec (order (map_to_list r)) (mkHttp empty_tree (h_certified h)) ND) as (A & B & C & D).
  simpl in *. rewrite (right_id_L ∅ (∪)) in A. splits.
  - rewrite A. rewrite <- (list_to_map_to_list r) at 2. apply list_to_map_proper; [exact ND|apply Ho].
  - exact B.
  - intros Hr. apply C. intros E. apply Hr. apply map_to_list_empty_iff. apply Permutation_nil_r. rewrite <- E. symmetry. apply Ho.
  - intros ->. apply D. apply Permutation_nil_r. rewrite Ho. rewrite map_to_list_empty. reflexivity.
Qed.

Lemma router_step e o order s h :
  up_inv s -> (forall l, order l ≡ₚ l) -> router_inv s h -> router_inv (fst (step e o s)) (http_step order o s h).
Proof.
  intros U Ho [R1 R2].
  assert (D : (exists id r, o = OReply id r) \/ (forall id r, o <> OReply id r)) by (destruct o; eauto; right; discriminate).
  destruct D as [(id & r & ->)|D].
  - simpl. unfold resume. destruct (pend s !! id) as [p|] eqn:Hp; [|destruct r; split; assumption].
    destruct p as [c0 path snap|c0 key i cn path|c0 key i cn path|c0 key], r as [cc|cr er| |er|];
      simpl; try (split; assumption).
    split; simpl; [rewrite R1; reflexivity|reflexivity].
  - destruct (step_files e o s U D) as (_ & E & _).
    destruct o; try (unfold router_inv; rewrite E; split; assumption); [exfalso; eapply D; reflexivity|].
    destruct (http_upgrade_spec order (redirs s) h Ho) as (A & _ & C & _). simpl in C. unfold router_inv. rewrite E.
    split; [exact A|exact C].
Qed.

Lemma router_run l : forall s h, orders_ok l -> up_inv s -> router_inv s h ->
  router_inv (fst (http_run l s h)) (snd (http_run l s h)).
Proof.
  induction l as [|[[e o] order] l IH]; intros s h O U R; simpl; [exact R|].
  apply Forall_cons in O. destruct O as [O1 O2]. apply IH; [exact O2| |].
  - apply (run_up_inv [(e, o)] s U).
  - apply router_step; assumption.
Qed.

Lemma reachable_router s h : http_reachable s h -> router_inv s h.
Proof.
  intros (caller & url_ok & a & s0 & l & Hi & O & Hr).
  pose proof (router_run l s0 http_init O) as R. rewrite Hr in R. apply R.
  - apply reachable_up_inv. exists caller, url_ok, a, s0, []. auto.
  - destruct (init_inv _ _ _ _ Hi) as (_ & _ & _ & _ & ->). split; [reflexivity|]. intros X. exfalso. apply X. reflexivity.
Qed.

(** ** C79 *)

(** Every path but the three reserved ones: a vouched-for redirection to the storage canister of a finalized upload with
    that path, or no answer if there is none.  Missing: uploads under a reserved name. *)
Theorem C79_served_partial s h path :
  http_reachable s h -> ~ reserved path ->
  ((exists k u, files s !! k = Some u /\ u_state u = UFinalized /\ norm_path k = path) /\
   exists k u, files s !! k = Some u /\ u_state u = UFinalized /\ norm_path k = path /\
     exists w, http_request path h = RRedirect (redirection_url (u_canister u) path) w /\
       vouched path h (http_request path h))
  \/ ((forall k u, files s !! k = Some u -> u_state u = UFinalized -> norm_path k <> path) /\ http_request path h = RFail).
Proof.
  intros Hr Hn. destruct (reachable_router s h Hr) as [R1 R2].
  pose proof (C49_redirections_exact s path (http_reachable_state s h Hr)) as [I F].
  assert (E : http_request path h = serve_asset path h).
  { unfold http_request, reserved in *. rewrite !elem_of_cons in Hn.
    destruct (String.eqb path "/logs") eqn:E1; [apply String.eqb_eq in E1; tauto|].
    destruct (String.eqb path "/traces") eqn:E2; [apply String.eqb_eq in E2; tauto|].
    destruct (String.eqb path "/metrics") eqn:E3; [apply String.eqb_eq in E3; tauto|reflexivity]. }
  rewrite E. unfold serve_asset. rewrite R1. destruct (redirs s !! path) as [url|] eqn:L.
  - left. split; [apply I; eauto|]. destruct (F url eq_refl) as (k & u & K1 & K2 & K3 & ->).
    exists k, u. splits; try assumption. eexists. split; [reflexivity|]. simpl. rewrite R1. split; [|exact L].
    apply R2. intros X. rewrite X, lookup_empty in L. discriminate.
  - right. split; [|reflexivity]. intros k u K1 K2 K3.
    assert (X : is_Some (@None string)) by (apply I; eauto). destruct X. discriminate.
Qed.
Print Assumptions C79_served_partial.

(** Histories with the iteration order of the model's own maps. *)
Definition plainly (l : history) : list (env * op * (list (string * string) -> list (string * string))) :=
  map (fun x => (x, fun r => r)) l.

Lemma plainly_ok l : orders_ok (plainly l).
Proof. apply Forall_forall. intros x H. apply elem_of_list_fmap in H. destruct H as (y & -> & _). reflexivity. Qed.

Lemma plainly_reachable l : http_reachable (fst (http_run (plainly l) demo0 http_init)) (snd (http_run (plainly l) demo0 http_init)).
Proof.
  exists admin, (fun _ => true), demo_args, demo0, (plainly l). split; [apply demo0_init|]. split; [apply plainly_ok|].
  apply surjective_pairing.
Qed.

(** Two uploads, an upgrade, and both are served; a path that was never uploaded is not. *)
Example C79_example :
  let x := http_run (plainly (upload_h "/a" [7] 0 ++ upload_h "b" [8] 3 ++ [(from_ admin 9, OUpgrade)])) demo0 http_init in
  http_reachable (fst x) (snd x) /\ ~ reserved "/b" /\
  match http_request "/b" (snd x) with RRedirect to _ => to | _ => "" end = "https://3tmwp-pyi.raw.icp0.io/b"%string /\
  bool_decide (h_certified (snd x) = Some (h_tree (snd x))) = true /\
  http_request "/c" (snd x) = RFail.
Proof.
  split; [apply plainly_reachable|]. split; [intros H; unfold reserved in H; repeat (apply elem_of_cons in H; destruct H as [H|H]; [discriminate|]); apply elem_of_nil in H; exact H|].
  splits; vm_compute; reflexivity.
Qed.

(** Refuted: a finalized upload named "logs" is not served; the canister answers its own log. *)
Theorem C79_reserved_refuted :
  exists s h k u, http_reachable s h /\ files s !! k = Some u /\ u_state u = UFinalized /\ norm_path k = "/logs"%string /\
    redirs s !! norm_path k = Some (redirection_url (u_canister u) (norm_path k)) /\
    forall to w, http_request (norm_path k) h <> RRedirect to w.
Proof.
  set (l := plainly (upload_h "logs" [7] 0)).
  exists (fst (http_run l demo0 http_init)), (snd (http_run l demo0 http_init)), "logs"%string, (mkUp (t0 + 2) UFinalized [7] "logs").
  split; [apply plainly_reachable|]. splits; try (vm_compute; reflexivity). intros to w. vm_compute. discriminate.
Qed.
Print Assumptions C79_reserved_refuted.

(** ** C80 *)

(** Refuted for the logs and traces in every state whatever: their certificate is about another path. *)
Theorem C80_logs_refuted h : ~ vouched "/logs" h (http_request "/logs" h) /\ ~ vouched "/traces" h (http_request "/traces" h).
Proof. split; intros (_ & X & _); discriminate X. Qed.
Print Assumptions C80_logs_refuted.

(** After an upgrade the tree has no entry for the pages any more. *)
Lemma skips_step order o s h : (forall l, order l ≡ₚ l) -> t_skips (h_tree h) = ∅ -> t_skips (h_tree (http_step order o s h)) = ∅.
Proof.
  intros Ho E. destruct o; try exact E.
  - simpl. destruct r; try exact E. destruct (pend s !! id) as [[]|]; exact E.
  - destruct (http_upgrade_spec order (redirs s) h Ho) as (_ & B & _). exact B.
Qed.

(** Refuted for the metrics from the first upgrade on, for ever. *)
Theorem C80_upgrade_refuted s h order e l :
  (forall r, order r ≡ₚ r) -> orders_ok l ->
  let x := http_run ((e, OUpgrade, order) :: l) s h in
  ~ vouched "/metrics" (snd x) (http_request "/metrics" (snd x)).
Proof.
  intros Ho O. cbn zeta. cbn [http_run].
  assert (E : t_skips (h_tree (http_step order OUpgrade s h)) = ∅).
  { destruct (http_upgrade_spec order (redirs s) h Ho) as (_ & B & _). exact B. }
  generalize dependent (http_step order OUpgrade s h). generalize (fst (step e OUpgrade s)). clear s h Ho.
  induction l as [|[[e1 o] f] l IH]; intros s h E.
  - intros (_ & _ & X). simpl in X. rewrite E in X. apply not_elem_of_empty in X. exact X.
  - apply Forall_cons in O. destruct O as [O1 O2]. simpl. apply (IH O2). apply skips_step; assumption.
Qed.
Print Assumptions C80_upgrade_refuted.

(** The metrics are vouched for until the first upgrade.  Missing: later, and the other two pages. *)
Theorem C80_metrics_partial caller url_ok a s0 l :
  init caller url_ok a = Some s0 -> Forall (fun x => snd (fst x) <> OUpgrade) l ->
  let x := http_run l s0 http_init in
  exists w, http_request "/metrics" (snd x) = RPage PageMetrics "/metrics" w /\ vouched "/metrics" (snd x) (http_request "/metrics" (snd x)).
Proof.
  intros _. assert (I : h_certified http_init = Some (h_tree http_init) /\ "/metrics"%string ∈ t_skips (h_tree http_init)).
  { split; [reflexivity|]. simpl. set_solver. }
  revert I. generalize s0. generalize http_init. clear.
  induction l as [|[[e o] f] l IH]; intros h s (C & M) NU.
  - exists (h_tree h). simpl. split; [reflexivity|]. auto.
  - apply Forall_cons in NU. destruct NU as [N1 N2]. simpl. apply IH; [|exact N2].
    destruct o; try (split; assumption); [|simpl in N1; congruence].
    simpl. destruct r; try (split; assumption). destruct (pend s !! id) as [[]|]; try (split; assumption).
    split; [reflexivity|exact M].
Qed.
Print Assumptions C80_metrics_partial.

(** Each name leads to its own page, and nothing else leads to a page. *)
Theorem C80_names path h p : (exists q w, http_request path h = RPage p q w) <->
  path = match p with PageLogs => "/logs" | PageTraces => "/traces" | PageMetrics => "/metrics" end%string.
Proof.
  unfold http_request, serve_page, serve_asset. split.
  - intros (q & w & H).
    destruct (String.eqb_spec path "/logs") as [->|_]; [injection H as <- _ _; reflexivity|].
    destruct (String.eqb_spec path "/traces") as [->|_]; [injection H as <- _ _; reflexivity|].
    destruct (String.eqb_spec path "/metrics") as [->|_]; [injection H as <- _ _; reflexivity|].
    destruct (_ !! path); discriminate H.
  - intros ->. destruct p; cbn; eauto.
Qed.
Print Assumptions C80_names.

Example C80_example :
  let l := plainly (upload_h "/a" [7] 0) in
  init admin (fun _ => true) demo_args = Some demo0 /\ Forall (fun x => snd (fst x) <> OUpgrade) l /\
  bool_decide ("/metrics"%string ∈ t_skips (h_tree (snd (http_run l demo0 http_init)))) = true /\
  bool_decide ("/metrics"%string ∈ t_skips (h_tree (snd (http_run (l ++ plainly [(from_ admin 9, OUpgrade)]) demo0 http_init)))) = false.
Proof.
  split; [apply demo0_init|]. split; [repeat constructor; discriminate|]. split; vm_compute; reflexivity.
Qed.

(** ** C141: headers of the answers *)

(** A text within a text. *)
Fixpoint starts (a s : string) : bool :=
  match a, s with
  | "", _ => true
  | String x a', String y s' => bool_decide (x = y) && starts a' s'
  | _, _ => false
  end%string.
Fixpoint within (a s : string) : bool :=
  starts a s || match s with "" => false | String _ r => within a r end%string.

(** What a browser is to be told: no framing, no guessing of types, no referrer, encrypted connections only, no isolation
    broken, no plug-ins, no camera, microphone or position. *)
Definition protections : list (string * list string) :=
  [("x-frame-options", ["DENY"]); ("x-content-type-options", ["nosniff"]); ("referrer-policy", ["no-referrer"]);
   ("strict-transport-security", ["max-age=31536000"; "includeSubDomains"]);
   ("content-security-policy", ["default-src 'self';"; "object-src 'none';"; "frame-ancestors 'none';"; "upgrade-insecure-requests"]);
   ("permissions-policy", ["camera=()"; "microphone=()"; "geolocation=()"; "payment=()"; "usb=()"]);
   ("cross-origin-embedder-policy", ["require-corp"]); ("cross-origin-opener-policy", ["same-origin"]);
   ("cache-control", ["no-cache"; "no-store"])]%string.

(** Whatever is answered, each header occurs once, all protections are there, the type is never one a browser would run, and
    a redirection goes where the collection recorded it. *)
Theorem C141_headers expression s h path st hs :
  http_reachable s h -> lowercase (fst expression) = "ic-certificateexpression"%string ->
  status_headers expression (http_request path h) = Some (st, hs) ->
  NoDup (map (fun x => lowercase (fst x)) hs) /\
  (forall k parts, (k, parts) ∈ protections -> exists v, (k, v) ∈ hs /\ Forall (fun a => within a v = true) parts) /\
  (exists v, ("content-type"%string, v) ∈ hs /\ v ∈ ["application/json"; "text/plain"]%string) /\
  ((st = 200 /\ reserved path /\ "location"%string ∉ map fst hs) \/
   (st = 307 /\ ~ reserved path /\ exists to, redirs s !! path = Some to /\ ("location"%string, to) ∈ hs)).
Proof.
  intros R Hx H.
  assert (Hloc : fst expression <> "location"%string) by (intros E; rewrite E in Hx; discriminate Hx).
  assert (C : (exists p q w, http_request path h = RPage p q w) \/ (exists to w, http_request path h = RRedirect to w)).
  { destruct (http_request path h); [left; eauto|right; eauto|discriminate H]. }
  destruct C as [(p & q & w & E)|(to & w & E)]; rewrite E in H; cbn [status_headers] in H; injection H as <- <-.
  - assert (Rv : reserved path).
    { pose proof (proj1 (C80_names path h p) (ex_intro _ q (ex_intro _ w E))) as ->. unfold reserved. destruct p; set_solver. }
    destruct expression as [ce cv]. cbn [fst] in *. unfold page_headers, get_asset_headers.
    split; [|split; [|split]].
    + cbn [map fst app]. rewrite Hx. apply (bool_decide_unpack _). vm_compute. exact I.
    + intros k parts K. unfold protections in K.
      repeat (apply elem_of_cons in K; destruct K as [K|K];
        [injection K as -> ->; eexists; split;
          [repeat first [apply elem_of_list_here|apply elem_of_list_further]
          |repeat (apply Forall_cons; split; [vm_compute; reflexivity|]); apply Forall_nil; exact I]|]).
      inversion K.
    + eexists. split; [do 9 apply elem_of_list_further; apply elem_of_list_here|set_solver].
    + left. split; [reflexivity|]. split; [exact Rv|]. cbn [map fst app].
      intros K. repeat (apply elem_of_cons in K; destruct K as [K|K]; [first [discriminate K|congruence]|]). inversion K.
  - assert (Rv : ~ reserved path).
    { intros X. unfold reserved in X. rewrite !elem_of_cons, elem_of_nil in X.
      destruct X as [->|[->|[->|[]]]]; discriminate E. }
    assert (T : redirs s !! path = Some to).
    { destruct (reachable_router s h R) as [<- _]. unfold http_request, serve_page, serve_asset in E.
      destruct (String.eqb path "/logs"); [discriminate E|]. destruct (String.eqb path "/traces"); [discriminate E|].
      destruct (String.eqb path "/metrics"); [discriminate E|]. destruct (_ !! path); [congruence|discriminate E]. }
    split; [|split; [|split]].
    + apply (bool_decide_unpack _). vm_compute. exact I.
    + intros k parts K. unfold protections in K.
      repeat (apply elem_of_cons in K; destruct K as [K|K];
        [injection K as -> ->; eexists; split;
          [repeat first [apply elem_of_list_here|apply elem_of_list_further]
          |repeat (apply Forall_cons; split; [vm_compute; reflexivity|]); apply Forall_nil; exact I]|]).
      inversion K.
    + eexists. split; [do 8 apply elem_of_list_further; apply elem_of_list_here|set_solver].
    + right. split; [reflexivity|]. split; [exact Rv|]. exists to. split; [exact T|].
      do 10 apply elem_of_list_further. apply elem_of_list_here.
Qed.
Print Assumptions C141_headers.

(** The entries of a text separated by commas. *)
Fixpoint entries (cur s : string) : list string :=
  match s with
  | "" => [cur]
  | String c r => if bool_decide (c = Ascii.ascii_of_nat 44) then cur :: entries "" r else entries (cur ++ String c "") r
  end%string.
(** An entry that keeps a feature to nobody or to the page itself. *)
Definition keeps_to_self (x : string) : Prop :=
  exists name, within "=" name = false /\ within " " name = false /\ name <> ""%string /\
    (x = name ++ "=()" \/ x = name ++ "=(self)")%string.

(** No feature of the browser is given to other sites, and none is named twice. *)
Theorem C141_features expression s h path st hs v :
  http_reachable s h -> lowercase (fst expression) = "ic-certificateexpression"%string ->
  status_headers expression (http_request path h) = Some (st, hs) ->
  ("permissions-policy"%string, v) ∈ hs -> Forall keeps_to_self (entries "" v) /\ NoDup (entries "" v).
Proof.
  intros R Hx H V.
  assert (E : exists more, hs = get_asset_headers more /\ "permissions-policy"%string ∉ map fst more).
  { destruct (http_request path h) as [p q w|to w|]; cbn [status_headers] in H; [| |discriminate H]; injection H as <- <-;
      unfold page_headers, redirect_headers; [exists [expression; ("content-type", "application/json"); ("cache-control", no_cache)]%string|
        exists [("content-type", "text/plain"); ("cache-control", no_cache); ("location", to)]%string];
      (split; [reflexivity|]); cbn [map fst app]; intros K;
      repeat (apply elem_of_cons in K; destruct K as [K|K]; [first [discriminate K|rewrite <- K in Hx; discriminate Hx]|]); inversion K. }
  destruct E as (more & -> & N). unfold get_asset_headers in V. apply elem_of_app in V. destruct V as [V|V].
  2:{ exfalso. apply N. apply elem_of_list_fmap. exists ("permissions-policy"%string, v). auto. }
  repeat (apply elem_of_cons in V; destruct V as [V|V]; [try discriminate V|]); [|inversion V]. injection V as ->.
  split; [|apply (bool_decide_unpack _); vm_compute; exact I].
  match goal with |- Forall _ ?l => let l' := eval vm_compute in l in change l with l' end.
  repeat (apply Forall_cons; split); [..|apply Forall_nil; exact I].
  all: match goal with |- keeps_to_self ?x =>
    let n1 := eval vm_compute in (substring 0 (String.length x - 3) x) in
    let n2 := eval vm_compute in (substring 0 (String.length x - 7) x) in
    first [exists n1; split; [vm_compute; reflexivity|]; split; [vm_compute; reflexivity|]; split; [discriminate|]; left; reflexivity
          |exists n2; split; [vm_compute; reflexivity|]; split; [vm_compute; reflexivity|]; split; [discriminate|]; right; reflexivity] end.
Qed.
Print Assumptions C141_features.

Example C141_example :
  let x := http_run (plainly (upload_h "/a" [7] 0)) demo0 http_init in
  http_reachable (fst x) (snd x) /\
  fst <$> status_headers ("IC-CertificateExpression"%string, "skip"%string) (http_request "/a" (snd x)) = Some 307 /\
  fst <$> status_headers ("IC-CertificateExpression"%string, "skip"%string) (http_request "/logs" (snd x)) = Some 200 /\
  status_headers ("IC-CertificateExpression"%string, "skip"%string) (http_request "/b" (snd x)) = None /\
  lowercase "IC-CertificateExpression" = "ic-certificateexpression"%string.
Proof.
  cbv zeta. split; [|vm_compute; repeat split; reflexivity].
  exists admin, (fun _ => true), demo_args, demo0, (plainly (upload_h "/a" [7] 0)). split; [apply demo0_init|].
  split; [|apply surjective_pairing]. apply plainly_ok.
Qed.
