(** Vocabulary for the index canister: a ledger that answers honestly, histories, and what a block is about, stated without
    the model's helper functions. *)
From Verif Require Import Base ModelPrincipal ModelState ModelIndex.

(** The ledger: the content of every block, past and future; the ids below the height exist. *)
Definition chain := N -> value.

(** Time and height of the ledger when a message is executed (for a reply: when it is computed). *)
Record ienv := mkIenv { i_now : N; i_height : N }.
Definition ihistory := list (ienv * iop).

Fixpoint irun (h : ihistory) (s : istate) : istate :=
  match h with [] => s | (e, o) :: r => irun r (fst (istep (i_now e) o s)) end.

(** Ids of a list of requests (start, length). *)
Definition ids_of (l : list (N * N)) : list N := concat (map (fun x => range (fst x) (fst x + snd x)) l).

(** An honest reply to a waiting task when the ledger has height [H]: the ledger returns the blocks of the requested
    interval that exist, in any order and in any division between itself and archives; archives return what they are asked
    for; calls may fail. *)
Definition honest (L : chain) (H : N) (t : task) (r : ireply) : Prop :=
  match r with
  | RFail => True
  | RLedger arch bs => exists s n rest, k_arch t = [] /\ k_chunks t = (s, n) :: rest /\
      concat (map ids_of arch) ++ map fst bs ≡ₚ range s (N.min (s + n) H) /\ Forall (fun b => snd b = L (fst b)) bs
  | RArchive bs => exists a rest, k_arch t = a :: rest /\ bs ≡ₚ map (fun i => (i, L i)) (ids_of a)
  end.

(** A user's numbers are 64 bits wide. *)
Definition typed (o : iop) : Prop :=
  match o with IGet a b _ _ => a < two64 /\ b < two64 | _ => True end.

(** A history with an honest ledger whose height only grows (from [H] on) and stays below 2^64. *)
Fixpoint fair (L : chain) (H : N) (h : ihistory) (s : istate) : Prop :=
  match h with
  | [] => True
  | (e, o) :: r =>
      H <= i_height e < two64 /\ typed o /\
      (forall id rp t, o = IReply id rp -> x_tasks s !! id = Some t -> honest L (i_height e) t rp) /\
      fair L (i_height e) r (fst (istep (i_now e) o s))
  end.

(** An index update is waiting. *)
Definition updating (s : istate) : Prop := exists id t n, x_tasks s !! id = Some t /\ k_kind t = KUpdate n.

(** Index updates do not overlap. *)
Fixpoint no_overlap (h : ihistory) (s : istate) : Prop :=
  match h with
  | [] => True
  | (e, o) :: r => (o = IUpdate -> ~ updating s) /\ no_overlap r (fst (istep (i_now e) o s))
  end.

(** ** What a block says *)

(** Field [k] of a map. *)
Definition field (v : value) (k : string) : option value :=
  match v with
  | VMap m => snd <$> (list_find (fun kv => fst kv = k) m ≫= fun x => Some (snd x))
  | _ => None
  end.

(** The type of a block is [ty] (in any letter case), one of the nine of the two standards. *)
Definition has_type (v : value) (ty : string) : Prop :=
  exists x, field v "btype" = Some (VText x) /\ lowercase x = ty /\
    ty ∈ ["7mint"; "7burn"; "7xfer"; "7update_token"; "37approve"; "37approve_coll"; "37revoke"; "37revoke_coll"; "37xfer"]%string.

(** The fields that name accounts, for each type. *)
Definition roles (ty : string) : list string :=
  if bool_decide (ty ∈ ["7xfer"; "7burn"]%string) then ["from"; "to"]%string
  else if bool_decide (ty = "7mint"%string) then ["to"]%string
  else if bool_decide (ty ∈ ["37approve"; "37revoke"; "37revoke_coll"]%string) then ["from"; "spender"]%string
  else if bool_decide (ty = "37xfer"%string) then ["from"; "spender"; "to"]%string
  else if bool_decide (ty ∈ ["7update_token"; "37approve_coll"]%string) then ["from"]%string
  else [].

(** Types whose blocks are listed by token. *)
Definition token_types : list string := ["7mint"; "7burn"; "7xfer"; "7update_token"; "37approve"; "37revoke"]%string.

(** The block names account [k] in field [f] of its transaction. *)
Definition names (v : value) (f : string) (k : acckey) : Prop :=
  exists t p, field v "tx" = Some t /\ field t f = Some (VText (principal_text p)) /\ (length p <= 29)%nat /\
    Forall (fun b => b < 256) p /\ k = (p, default_sub).

(** A block is about a key. *)
Definition about (v : value) (k : ikey) : Prop :=
  match k with
  | KType ty => has_type v ty
  | KToken n => exists ty t, has_type v ty /\ ty ∈ token_types /\ field v "tx" = Some t /\ field t "tid" = Some (VNat n)
  | KAccount a => exists ty f, has_type v ty /\ f ∈ roles ty /\ names v f a
  end.

(** The index can take the block in: known type, and token id below 2^64. *)
Definition understood (v : value) : Prop :=
  (exists ty, has_type v ty) /\ forall n, about v (KToken n) -> n < two64.
