(** Specification of the prefix tree: canonical binary tries over bit strings. *)
From Verif Require Import Base PrefixModel LogTreeSpec.

(** The bits of a byte string, most significant first. *)
Definition byteBits (b : byte) : list bool :=
  map (fun i => N.testbit (b2n b) i) [7; 6; 5; 4; 3; 2; 1; 0].
Definition bits (v : bytes) : list bool := flat_map byteBits v.

Definition prefixOf (p l : list bool) : Prop := exists q, l = p ++ q.

(** A binary trie with values [c] at keys [k]. *)
Inductive trie := TE | TL (k c : bytes) | TN (l r : trie).

Fixpoint contents (t : trie) : list (bytes * bytes) :=
  match t with
  | TE => []
  | TL k c => [(k, c)]
  | TN l r => contents l ++ contents r
  end.

(** [Canon hs p t]: [t] is the canonical trie, below path [p], of its contents: every leaf is
    on the path of its key, and a node branches only if it has at least two leaves
    below it.  Keys and values have [hs] bytes. *)
Fixpoint Canon (hs : nat) (p : list bool) (t : trie) : Prop :=
  match t with
  | TE => True
  | TL k c => List.length k = hs /\ List.length c = hs /\ prefixOf p (bits k)
  | TN l r =>
      Canon hs (p ++ [false]) l /\ Canon hs (p ++ [true]) r /\
      (2 <= List.length (contents l ++ contents r))%nat
  end.

(** Hash of a trie: empty nodes hash to zeros, leaves and parents are domain separated. *)
Fixpoint thash (H : bytes -> option bytes) (hs : nat) (t : trie) : option bytes :=
  match t with
  | TE => Some (repeat x00 hs)
  | TL k c => H (x02 :: k ++ c)
  | TN l r =>
      match thash H hs l, thash H hs r with
      | Some a, Some b => H (x03 :: a ++ b)
      | _, _ => None
      end
  end.

(** The hash function is broken on the inputs [T]: a collision, or an input hashing to
    zeros (the value standing for an empty node). *)
Definition broken (f : bytes -> bytes) (hs : nat) (T : list bytes) : Prop :=
  collisionIn f T \/ exists x, In x T /\ f x = repeat x00 hs.

(** ** Abstract maps *)

Definition kvmap : Type := bytes -> option bytes.
Definition emptyMap : kvmap := fun _ => None.

Fixpoint assoc (l : list (bytes * bytes)) (k : bytes) : option bytes :=
  match l with
  | [] => None
  | (k', c) :: t => if bytes_eqb k k' then Some c else assoc t k
  end.

(** Remove the keys [rem], then add [add]. *)
Definition update (m : kvmap) (add : list (bytes * bytes)) (rem : list bytes) : kvmap :=
  fun k => match assoc add k with
           | Some c => Some c
           | None => if existsb (bytes_eqb k) rem then None else m k
           end.

(** A batch is admissible for a map: right sizes, no key twice, added keys are new (or
    removed in the same batch), removed keys exist, and it does something. *)
Definition admissible (hs : nat) (m : kvmap) (add : list (bytes * bytes)) (rem : list bytes) : Prop :=
  Forall (fun e => List.length (fst e) = hs /\ List.length (snd e) = hs) add /\
  Forall (fun k => List.length k = hs) rem /\
  NoDup (map fst add) /\ NoDup rem /\
  (forall k, In k (map fst add) -> m k <> None -> In k rem) /\
  (forall k, In k rem -> m k <> None).

(** ** Proofs *)

(** Terminal node of the search for a key: the result to be reported, and the value. *)
Fixpoint tsearch (t : trie) (k : bytes) (bs : list bool) (d : nat) : presult * option bytes :=
  match t with
  | TE => (NonPar d, None)
  | TL k' c => if bytes_eqb k k' then (Inc d, Some c) else (NonLeaf k' c d, None)
  | TN l r =>
      match bs with
      | [] => (NonPar d, None)
      | b :: bs' => tsearch (if b then r else l) k bs' (S d)
      end
  end.

Definition bitAt (k : bytes) (d : nat) : bool := nth d (bits k) false.

(** Hashes of the maximal subtrees that contain no searched key, left to right. *)
Fixpoint telems (H : bytes -> option bytes) (hs : nat) (t : trie) (ks : list bytes) (d : nat) : option (list bytes) :=
  match ks with
  | [] => match thash H hs t with Some h => Some [h] | None => None end
  | _ =>
      match t with
      | TE | TL _ _ => Some []
      | TN l r =>
          match telems H hs l (filter (fun k => negb (bitAt k d)) ks) (S d),
                telems H hs r (filter (fun k => bitAt k d) ks) (S d) with
          | Some a, Some b => Some (a ++ b)
          | _, _ => None
          end
      end
  end.

(** [P] holds of the maximal subtrees that contain no searched key. *)
Fixpoint copathAll (P : trie -> Prop) (t : trie) (ks : list bytes) (d : nat) : Prop :=
  match ks with
  | [] => P t
  | _ =>
      match t with
      | TE | TL _ _ => True
      | TN l r =>
          copathAll P l (filter (fun k => negb (bitAt k d)) ks) (S d) /\
          copathAll P r (filter (fun k => bitAt k d) ks) (S d)
      end
  end.

(** ** Arbitrary proofs *)

(** A proof with the sizes guaranteed by its decoder. *)
Definition wfProof (hs : nat) (p : pproof) : Prop :=
  Forall (fun h : bytes => List.length h = hs) (p_elements p) /\
  (forall v c d, In (NonLeaf v c d) (p_results p) -> List.length v = hs /\ List.length c = hs).

(** The condition the verifier does not check: a result that claims a key absent does not do so
    by showing the leaf of that very key, and where the leaf it shows is that of another key which
    the same proof claims present, both give the same commitment. *)
Definition agreeing (entries : list entry) (rs : list presult) : Prop :=
  forall v c d e r, In (NonLeaf v c d) rs -> In (e, r) (combine entries rs) -> rincl r = true -> fst e = v -> snd e = c.
Definition noAlias (entries : list entry) (rs : list presult) : Prop :=
  (forall e v c d, In (e, NonLeaf v c d) (combine entries rs) -> v <> fst e) /\ agreeing entries rs.

(** The leaf shown by a non-inclusion result lies on the search path of the key. *)
Definition leafOnPath (e : entry) (r : presult) : Prop :=
  match r with NonLeaf v _ d => prefixOf (firstn d (bits (fst e))) (bits v) | _ => True end.

(** Inputs hashed to compute the hash of a trie. *)
Fixpoint treeInputs (f : bytes -> bytes) (hs : nat) (t : trie) : list bytes :=
  match t with
  | TE => []
  | TL k c => [x02 :: k ++ c]
  | TN l r =>
      match thash (full f) hs l, thash (full f) hs r with
      | Some a, Some b => (x03 :: a ++ b) :: treeInputs f hs l ++ treeInputs f hs r
      | _, _ => []
      end
  end.

(** [t] is the canonical trie of the map [m]. *)
Definition trieOf (hs : nat) (m : kvmap) (t : trie) : Prop :=
  Canon hs [] t /\ forall k, assoc (contents t) k = m k.

(** ** Histories *)

(** [hist f hs s versions]: the database contents [s] after a sequence of successful, non-empty
    mutations starting from the empty tree; [versions] lists for each version the
    map it should hold and the root hash that was returned. *)
Inductive hist (f : bytes -> bytes) (hs : nat) : store -> list (kvmap * bytes) -> Prop :=
| hist_start : hist f hs [] [(emptyMap, repeat x00 hs)]
| hist_step s past m h add rem root proof coms s' :
    hist f hs s (past ++ [(m, h)]) ->
    lenN past + 1 < two64 -> add <> [] \/ rem <> [] -> lenN add + lenN rem < two32 ->
    mutate (full f) hs s (lenN past) add rem = Ok (root, proof, coms, s') ->
    hist f hs s' ((past ++ [(m, h)]) ++ [(update m add rem, root)]).

(** ** Tiles *)

(** The node [n'] read back from tile [id]: the same tree as [n]; cached hashes, where present,
    are right, and parent nodes remember the tile they are from. *)
Fixpoint storedAs (H : bytes -> option bytes) (hs : nat) (id : tileId) (n n' : node) : Prop :=
  match n, n' with
  | Empty, Empty => True
  | Leaf v c, Leaf v' c' => v = v' /\ c = c'
  | External h i, External h' i' => h = h' /\ i = i'
  | Parent l r _ _, Parent l' r' h' i' =>
      storedAs H hs id l l' /\ storedAs H hs id r r' /\ i' = Some id /\
      (forall x, h' = Some x -> nodeHash H hs n = Ok x)
  | _, _ => False
  end.

(** Fields of the sizes of the cipher suite. *)
Fixpoint sizedNode (hs : nat) (n : node) : Prop :=
  match n with
  | Empty => True
  | Leaf v c => List.length v = hs /\ List.length c = hs
  | Parent l r h id => sizedNode hs l /\ sizedNode hs r /\ (forall x, h = Some x -> List.length x = hs) /\
      (forall i, id = Some i -> fst i < two64 /\ snd i < two64)
  | External h id => List.length h = hs /\ fst id < two64 /\ snd id < two64
  end.
