(** * DecodeIntoSpec: objects, and what decoding into one has to give (specification for C54) *)
From Verif Require Import Base TypedBin TypedSpec DecodeInto.

(** ** Objects of a type, of any size (also those too large to be written) *)
Inductive object (env : nat -> ty) : ty -> val -> Prop :=
| OInt sg n z : int_ok sg n z = true -> object env (TInt sg n) (VInt z)
| OBool b : object env TBool (VBool b)
| OFloat n z : n = 4%nat \/ n = 8%nat -> 0 <= z < 2 ^ (8 * Z.of_nat n) -> object env (TFloat n) (VFloat n z)
| OVaruint z : 0 <= z < 2 ^ 32 -> object env TVaruint32 (VInt z)
| OVarint z : - 2 ^ 31 <= z < 2 ^ 31 -> object env TVarint32 (VInt z)
| OString b : bytes_ok b -> object env TString (VStr b)
| OStream b : bytes_ok b -> object env TStream (VStr b)
| OVec t l : Forall (object env t) l -> object env (TVec t) (VList l)
| OSeq t l : Forall (object env t) l -> object env (TSeq t) (VList l)
| OSet t l : Forall (object env t) l -> keys_ok id_key l = true -> object env (TSet t) (VList l)
| OMap k t l : Forall (fun p => exists x y, p = VList [x; y] /\ object env k x /\ object env t y) l -> keys_ok pair_key l = true ->
    object env (TMap k t) (VList l)
| OArr n t l : List.length l = n -> Forall (object env t) l -> object env (TArr n t) (VList l)
| OCArr n t l : List.length l = n -> Forall (object env t) l -> object env (TCArr n t) (VList l)
| ONone t : object env (TOpt t) (VOpt None)
| OSome t x : object env t x -> object env (TOpt t) (VOpt (Some x))
| OVariant ts i t x : nth_error ts i = Some t -> object env t x -> object env (TVariant ts) (VVar (Z.of_nat i) x)
| OTuple ts l : Forall2 (object env) ts l -> object env (TTuple ts) (VList l)
| OMaybe t v : object env t v -> object env (TMaybe t) v
| OWrap k t v : object env t v -> object env (TWrap k t) v
| ORef n v : object env (env n) v -> object env (TRef n) v.

(** Types which C++ can instantiate: [ty_ok], and no variant without alternatives. *)
Fixpoint instantiable (t : ty) : bool :=
  ty_ok t &&
  match t with
  | TVec t | TSeq t | TSet t | TArr _ t | TCArr _ t | TOpt t | TWrap _ t | TMaybe t => instantiable t
  | TMap k t => instantiable k && instantiable t
  | TVariant ts => match ts with [] => false | _ => forallb instantiable ts end
  | TTuple ts => forallb instantiable ts
  | _ => true
  end.
(** [d]: the default constructed objects of the recursive types. *)
Definition defaults (env : nat -> ty) (d : nat -> val) : Prop := forall n, d n = fresh_with d (env n) /\ object env (env n) (d n).

(** ** Types whose old contents cannot show: no list, deque, set, map or might_not_exist, except inside of
    what is made anew: contents of an optional or variant. [ok n]: the same for the n-th recursive type. *)
Fixpoint overwritten (ok : nat -> bool) (t : ty) : bool :=
  match t with
  | TSeq _ | TSet _ | TMap _ _ | TMaybe _ => false
  | TVec t | TArr _ t | TCArr _ t | TWrap _ t => overwritten ok t
  | TTuple ts => forallb (overwritten ok) ts
  | TRef n => ok n
  | _ => true
  end.

(** ** What an object becomes: [becomes t old new r]: [new] is what a fresh object would become. *)
Inductive becomes (env : nat -> ty) : ty -> val -> val -> val -> Prop :=
| BScalar t old new :
    match t with TInt _ _ | TBool | TFloat _ | TVaruint32 | TVarint32 | TString | TStream | TOpt _ | TVariant _ => True | _ => False end ->
    becomes env t old new new
(* Elements which were there are read over, the others are new, those which are too many vanish. *)
| BVec t old over gone new1 new2 r : old = over ++ gone -> gone = [] \/ new2 = [] ->
    becomes_all env (repeat t (List.length over)) over new1 r -> becomes env (TVec t) (VList old) (VList (new1 ++ new2)) (VList (r ++ new2))
(* Lists and deques grow. *)
| BSeq t old new : becomes env (TSeq t) (VList old) (VList new) (VList (old ++ new))
(* Sets and maps: what was there stays, and wins. *)
| BSet t old new r : keys_ok id_key r = true -> (forall x, In x r <-> In x old \/ In x new /\ forall y, In y old -> vcmp x y <> Eq) ->
    becomes env (TSet t) (VList old) (VList new) (VList r)
| BMap k t old new r : keys_ok pair_key r = true ->
    (forall x, In x r <-> In x old \/ In x new /\ forall y, In y old -> vcmp (pair_key x) (pair_key y) <> Eq) ->
    becomes env (TMap k t) (VList old) (VList new) (VList r)
| BArr n t old new r : List.length old = n -> becomes_all env (repeat t n) old new r -> becomes env (TArr n t) (VList old) (VList new) (VList r)
| BCArr n t old new r : List.length old = n -> becomes_all env (repeat t n) old new r -> becomes env (TCArr n t) (VList old) (VList new) (VList r)
| BTuple ts old new r : becomes_all env ts old new r -> becomes env (TTuple ts) (VList old) (VList new) (VList r)
| BMaybe t old new r : becomes env t old new r -> becomes env (TMaybe t) old new r
(* might_not_exist at the end of the stream *)
| BKept t old new : new = VList [] \/ new = VStr [] -> becomes env (TMaybe t) old new old
| BWrap k t old new r : becomes env t old new r -> becomes env (TWrap k t) old new r
| BRef n old new r : becomes env (env n) old new r -> becomes env (TRef n) old new r
with becomes_all (env : nat -> ty) : list ty -> list val -> list val -> list val -> Prop :=
| ANil : becomes_all env [] [] [] []
| ACons t ts x old y new z r : becomes env t x y z -> becomes_all env ts old new r -> becomes_all env (t :: ts) (x :: old) (y :: new) (z :: r).

(** ** Failed decoding: [in_turn f ts old s new rest]: the objects [old] of the types [ts] are read over one after the other, and become [new]. *)
Inductive in_turn (f : ty -> val -> list Z -> val * res (list Z)) : list ty -> list val -> list Z -> list val -> list Z -> Prop :=
| turn_nil s : in_turn f [] [] s [] s
| turn_cons t ts x l s y s' l' s'' : f t x s = (y, Ok s') -> in_turn f ts l s' l' s'' -> in_turn f (t :: ts) (x :: l) s (y :: l') s''.
(** [stopped f e ts old s new]: reading over [old] ends with the error [e] at one of them: those before it are read, that one is as its
    own decoder leaves it, those behind it are as they were. *)
Inductive stopped (f : ty -> val -> list Z -> val * res (list Z)) (e : error) : list ty -> list val -> list Z -> list val -> Prop :=
| stopped_at ts1 t ts2 first x last s first' s' y :
    in_turn f ts1 first s first' s' -> f t x s' = (y, Err e) -> List.length ts2 = List.length last ->
    stopped f e (ts1 ++ t :: ts2) (first ++ x :: last) s (first' ++ y :: last).
