(** The HTTP side of the collection canister: redirections, diagnostic pages and what is certified. *)
From Verif Require Import Base ModelPrincipal ModelState ModelIcrc7 ModelIcrc37 ModelManagement ModelLifecycle ModelStep.

(** What the certification tree holds: the redirections of the asset router and the paths entered with certification
    skipped. [HTTP_TREE] and [ASSET_ROUTER] share one tree, src/core_nft/src/types/http.rs:11-24.
    Simplification: the tree of the external crate is its content; entering a redirection for a path that has one
    replaces it. *)
Record tree := mkTree { t_redirects : gmap string string; t_skips : gset string }.

(** Equality of trees is decidable, see [tree]. *)
Global Instance tree_eq_dec : EqDecision tree.
Proof. solve_decision. Defined.

(** The tree (lost in an upgrade, src/core_nft/src/types/http.rs:11-24) and the root hash last given to
    [certified_data_set] (kept by the platform).  Simplification: a root hash is the tree it was computed from. *)
Record http := mkHttp { h_tree : tree; h_certified : option tree }.

(** The thread-local values of a new module, src/core_nft/src/types/http.rs:12,21-23. *)
Definition empty_tree : tree := mkTree ∅ ∅.

(** [certified_data_set(&asset_router.root_hash())], src/core_nft/src/types/http.rs:54,105. *)
Definition certify (h : http) : http := mkHttp (h_tree h) (Some (h_tree h)).

(** [add_redirection], src/core_nft/src/types/http.rs:29-58; a trap of the external router is the reply [RTrap] of the
    call that runs it.  For the headers see [redirect_headers]. *)
Definition add_redirection (from to : string) (h : http) : http :=
  certify (mkHttp (mkTree (<[from := to]> (t_redirects (h_tree h))) (t_skips (h_tree h))) (h_certified h)).

(** [certify_all_assets], src/core_nft/src/types/http.rs:80-107. *)
Definition certify_all_assets (h : http) : http :=
  certify (mkHttp (mkTree (t_redirects (h_tree h)) ({["/trace"]} ∪ ({["/logs"]} ∪ ({["/metrics"]} ∪ t_skips (h_tree h)))))
                  (h_certified h)).

(** The HTTP part after installation, src/core_nft/src/lifecycle/init.rs:178. *)
Definition http_init : http := certify_all_assets (mkHttp empty_tree None).

(** The HTTP part after an upgrade of a canister with redirections [r], read in the order [order] of the hash map:
    src/core_nft/src/lifecycle/post_upgrade.rs:57-60. *)
Definition http_upgrade (order : list (string * string) -> list (string * string)) (r : gmap string string) (h : http) : http :=
  foldl (fun h kv => add_redirection (fst kv) (snd kv) h) (mkHttp empty_tree (h_certified h)) (order (map_to_list r)).

(** Effect of a message on the HTTP part: [finalize_upload] after its await
    (src/core_nft/src/updates/management.rs:517-525) and [post_upgrade]. *)
Definition http_step (order : list (string * string) -> list (string * string)) (o : op) (s : state) (h : http) : http :=
  match o with
  | OReply id ROk =>
      match pend s !! id with
      | Some (PFinalize _ _ _ c path) => add_redirection (norm_path path) (redirection_url c (norm_path path)) h
      | _ => h
      end
  | OUpgrade => http_upgrade order (redirs s) h
  | _ => h
  end.

(** A history of both parts; every message carries the iteration order an upgrade would use (see [http_step]). *)
Fixpoint http_run (l : list (env * op * (list (string * string) -> list (string * string)))) (s : state) (h : http) : state * http :=
  match l with
  | [] => (s, h)
  | (e, o, order) :: r => http_run r (fst (step e o s)) (http_step order o s h)
  end.

(** The pages that do not come from the router, src/core_nft/src/queries/http_request.rs:19-24. *)
Inductive page := PageLogs | PageTraces | PageMetrics.

(** Answers: a diagnostic page with the path its certificate is about and the tree the witness is taken from; a redirection
    with the tree of its witness; a trap.  src/core_nft/src/queries/http_request.rs:15-117. *)
Inductive response :=
| RPage (p : page) (cert_path : string) (witness : tree)
| RRedirect (to : string) (witness : tree)
| RFail.

(** [serve_logs] and [serve_metrics]: the witness is for "/metrics" in every case,
    src/core_nft/src/queries/http_request.rs:47-62,87-102. *)
Definition serve_page (p : page) (h : http) : response := RPage p "/metrics" (h_tree h).

(** [serve_asset], src/core_nft/src/queries/http_request.rs:106-117: the router knows redirections only; anything else
    traps. *)
Definition serve_asset (path : string) (h : http) : response :=
  match t_redirects (h_tree h) !! path with
  | Some to => RRedirect to (h_tree h)
  | None => RFail
  end.

(** [http_request] for a request whose URL has the path [path], src/core_nft/src/queries/http_request.rs:15-25.
    The bodies of the diagnostic pages are not modelled. *)
Definition http_request (path : string) (h : http) : response :=
  if String.eqb path "/logs" then serve_page PageLogs h
  else if String.eqb path "/traces" then serve_page PageTraces h
  else if String.eqb path "/metrics" then serve_page PageMetrics h
  else serve_asset path h.

(** A header field, [HeaderField] of the external crate ic_http_certification, src/core_nft/src/types/http.rs:4. *)
Notation header := (string * string)%type.

(** [NO_CACHE_ASSET_CACHE_CONTROL], src/core_nft/src/types/http.rs:27. *)
Definition no_cache : string := "public, no-cache, no-store".

(** [get_asset_headers], src/core_nft/src/types/http.rs:109-133. *)
Definition get_asset_headers (additional : list header) : list header :=
  [("strict-transport-security", "max-age=31536000; includeSubDomains");
   ("x-frame-options", "DENY");
   ("x-content-type-options", "nosniff");
   ("content-security-policy", "default-src 'self'; img-src 'self' data:; form-action 'self'; object-src 'none'; frame-ancestors 'none'; upgrade-insecure-requests; block-all-mixed-content");
   ("referrer-policy", "no-referrer");
   ("permissions-policy", "accelerometer=(),ambient-light-sensor=(),autoplay=(),battery=(),camera=(),display-capture=(),document-domain=(),encrypted-media=(),fullscreen=(),gamepad=(),geolocation=(),gyroscope=(),layout-animations=(self),legacy-image-formats=(self),magnetometer=(),microphone=(),midi=(),oversized-images=(self),payment=(),picture-in-picture=(),publickey-credentials-get=(),speaker-selection=(),sync-xhr=(self),unoptimized-images=(self),unsized-media=(self),usb=(),screen-wake-lock=(),web-share=(),xr-spatial-tracking=()");
   ("cross-origin-embedder-policy", "require-corp");
   ("cross-origin-opener-policy", "same-origin")]%string ++ additional.

(** Headers of the diagnostic pages, src/core_nft/src/queries/http_request.rs:30-40,70-80; the first is the field
    [CERTIFICATE_EXPRESSION_HEADER_NAME] with the text of [skip_certification], both of the external crate. *)
Definition page_headers (expression : header) : list header :=
  get_asset_headers [expression; ("content-type", "application/json"); ("cache-control", no_cache)]%string.

(** Headers entered with a redirection, src/core_nft/src/types/http.rs:38-44; the router adds the target. *)
Definition redirect_headers : list header :=
  get_asset_headers [("content-type", "text/plain"); ("cache-control", no_cache)]%string.

(** Status and headers of an answer as set by the canister (the certificate field is added by the external crates): 200 for a
    page, 307 for a redirection of kind [Temporary], src/core_nft/src/queries/http_request.rs:41-45,81-85,
    src/core_nft/src/types/http.rs:34-45.  A trap has neither. *)
Definition status_headers (expression : header) (r : response) : option (N * list header) :=
  match r with
  | RPage _ _ _ => Some (200, page_headers expression)
  | RRedirect to _ => Some (307, redirect_headers ++ [("location"%string, to)])
  | RFail => None
  end.
