(** Concrete prefix trees for the examples and refutations in PrefixProperties.v. *)
From Verif Require Import Base BaseProofs LogTreeSpec LogTreeModel PrefixModel PrefixSpec PrefixProofs.

(** A toy hash function with 32-byte output: the first 256 bits of a polynomial in the bytes, the lowest bit first in each byte. *)
Definition byteOf (p : N) : byte * N :=
  let p1 := N.div2 p in let p2 := N.div2 p1 in let p3 := N.div2 p2 in let p4 := N.div2 p3 in
  let p5 := N.div2 p4 in let p6 := N.div2 p5 in let p7 := N.div2 p6 in
  (Byte.of_bits (N.odd p, (N.odd p1, (N.odd p2, (N.odd p3, (N.odd p4, (N.odd p5, (N.odd p6, N.odd p7))))))), N.div2 p7).
Fixpoint lowBytes (k : nat) (p : N) : bytes :=
  match k with O => [] | S k' => let (b, q) := byteOf p in b :: lowBytes k' q end.
Definition times257 (p : N) : N :=
  N.double (N.double (N.double (N.double (N.double (N.double (N.double (N.double p))))))) + p.
Definition toy32 (x : bytes) : bytes := lowBytes 32 (157 * fold_left (fun acc b => times257 acc + b2n b + 1) x 7).

Lemma toy32_len x : List.length (toy32 x) = 32%nat.
Proof. reflexivity. Qed.

(** Keys (VRF outputs) with given first two bytes, and commitments. *)
Definition kk (a b : N) : bytes := [n2b a; n2b b] ++ be 30 (a * b).
Definition cc (a : N) : bytes := be 32 (a * 7).

Definition add1 : list entry := [(kk 200 3, cc 3); (kk 1 2, cc 1); (kk 1 3, cc 2)].

Definition get {A} (d : A) (r : res A) : A := match r with Ok a => a | _ => d end.
Definition m1 := Eval vm_compute in get ([], {| p_results := []; p_elements := [] |}, [], []) (mutate (full toy32) 32 [] 0 add1 []).
Definition root1 : bytes := fst (fst (fst m1)).
Definition store1 : store := snd m1.
Definition map1 : kvmap := update emptyMap add1 [].

Lemma m1_ok : mutate (full toy32) 32 [] 0 add1 [] = Ok m1.
Proof. vm_compute. reflexivity. Qed.

Lemma hist1 : hist toy32 32 store1 ([(emptyMap, repeat x00 32)] ++ [(map1, root1)]).
Proof.
  apply (hist_step toy32 32 [] [] emptyMap (repeat x00 32) add1 [] root1 (snd (fst (fst m1))) (snd (fst m1)) store1).
  - constructor.
  - reflexivity.
  - left. discriminate.
  - reflexivity.
  - exact m1_ok.
Qed.

(** The second version: one key removed, one added. *)
Definition m2 := Eval vm_compute in get ([], {| p_results := []; p_elements := [] |}, [], []) (mutate (full toy32) 32 store1 1 [(kk 7 2, cc 9)] [kk 1 2]).
Definition root2 : bytes := fst (fst (fst m2)).
Definition store2 : store := snd m2.
Definition proof2 : pproof := snd (fst (fst m2)).
Lemma m2_ok : mutate (full toy32) 32 store1 1 [(kk 7 2, cc 9)] [kk 1 2] = Ok m2.
Proof. vm_compute. reflexivity. Qed.

(** Version 2 of another history: only an addition. *)
Definition m3 := Eval vm_compute in get ([], {| p_results := []; p_elements := [] |}, [], []) (mutate (full toy32) 32 store1 1 [(kk 7 2, cc 9)] []).
Definition root3 : bytes := fst (fst (fst m3)).
Definition proof3 : pproof := snd (fst (fst m3)).
Lemma m3_ok : mutate (full toy32) 32 store1 1 [(kk 7 2, cc 9)] [] = Ok m3.
Proof. vm_compute. reflexivity. Qed.

(** The trie of version 1. *)
Fixpoint chain (n : nat) (bs : list bool) (t : trie) : trie :=
  match n, bs with
  | S n', b :: bs' => if b then TN TE (chain n' bs' t) else TN (chain n' bs' t) TE
  | _, _ => t
  end.
Definition trie1 : trie :=
  TN (chain 14 (skipn 1 (bits (kk 1 2))) (TN (TL (kk 1 2) (cc 1)) (TL (kk 1 3) (cc 2)))) (TL (kk 200 3) (cc 3)).

Lemma trie1_root : thash (full toy32) 32 trie1 = Some root1.
Proof. vm_compute. reflexivity. Qed.

(** Deciding [Canon]. *)
Fixpoint prefixb (p l : list bool) : bool :=
  match p, l with
  | [], _ => true
  | a :: p', b :: l' => Bool.eqb a b && prefixb p' l'
  | _, _ => false
  end.
Lemma prefixb_ok p : forall l, prefixb p l = true -> prefixOf p l.
Proof.
  induction p as [|a p IH]; intros l E; [exists l; reflexivity|]. destruct l as [|b l]; [discriminate E|]. cbn in E.
  apply andb_true_iff in E. destruct E as [E1 E2]. apply Bool.eqb_prop in E1. destruct (IH l E2) as [q ->]. subst. exists q. reflexivity.
Qed.
Fixpoint canonb (hs : nat) (p : list bool) (t : trie) : bool :=
  match t with
  | TE => true
  | TL k c => Nat.eqb (List.length k) hs && Nat.eqb (List.length c) hs && prefixb p (bits k)
  | TN l r => canonb hs (p ++ [false]) l && canonb hs (p ++ [true]) r && Nat.leb 2 (List.length (contents l ++ contents r))
  end.
Lemma canonb_ok hs t : forall p, canonb hs p t = true -> Canon hs p t.
Proof.
  induction t as [|k c|l IHl r IHr]; intros p E; cbn [canonb Canon] in *; [exact I| |].
  - apply andb_true_iff in E. destruct E as [E E3]. apply andb_true_iff in E. destruct E as [E1 E2].
    split; [apply Nat.eqb_eq; exact E1|]. split; [apply Nat.eqb_eq; exact E2|apply prefixb_ok; exact E3].
  - apply andb_true_iff in E. destruct E as [E E3]. apply andb_true_iff in E. destruct E as [E1 E2].
    split; [auto|]. split; [auto|]. apply Nat.leb_le. exact E3.
Qed.
Lemma trie1_canon : Canon 32 [] trie1.
Proof. apply canonb_ok. vm_compute. reflexivity. Qed.

(** Deciding [broken]. *)
Fixpoint distinct (l : list bytes) : bool :=
  match l with [] => true | a :: t => negb (existsb (bytes_eqb a) t) && distinct t end.
Lemma distinct_ok l : distinct l = true -> NoDup l.
Proof.
  induction l as [|a l IH]; intros E; [constructor|]. cbn in E. apply andb_true_iff in E. destruct E as [E1 E2].
  constructor; [|auto]. intros I. apply negb_true_iff in E1. apply not_true_iff_false in E1. apply E1. apply existsb_exists. exists a. split; [exact I|apply bytes_eqb_refl].
Qed.
Lemma notBroken f hs T : distinct (map f T) && negb (existsb (bytes_eqb (repeat x00 hs)) (map f T)) = true -> ~ broken f hs T.
Proof.
  intros E. apply andb_true_iff in E. destruct E as [E1 E2]. apply distinct_ok in E1. apply negb_true_iff in E2.
  intros [[x [y [Ix [Iy [N E]]]]]|[x [I Z]]].
  - apply N. clear - E1 Ix Iy E. induction T as [|a T IH]; [destruct Ix|]. cbn in E1. inversion E1 as [|? ? N1 N2]; subst.
    destruct Ix as [->|Ix], Iy as [->|Iy]; auto; exfalso; apply N1; [rewrite E|rewrite <- E]; apply in_map; assumption.
  - apply not_true_iff_false in E2. apply E2. apply existsb_exists. exists (f x). split; [apply in_map; exact I|]. rewrite Z. apply bytes_eqb_refl.
Qed.

(** All inputs hashed for version 1. *)
Definition tab1 : list bytes := Eval vm_compute in treeInputs toy32 32 trie1.
Lemma tab1_ok : ~ broken toy32 32 tab1.
Proof. apply notBroken. vm_compute. reflexivity. Qed.
Lemma trie1_root' : thash (restrict toy32 tab1) 32 trie1 = Some root1.
Proof. vm_compute. reflexivity. Qed.

(** An honest proof for the keys 1/2 and 1/3, and a proof in which the leaf of the second is
    shown as evidence against ... the first (C26), or of the key itself (C27). *)
Definition pfull : pproof := Eval vm_compute in fst (get ({| p_results := []; p_elements := [] |}, []) (search (full toy32) 32 store1 1 [kk 1 2; kk 200 3])).

(** Search for 200/3 and the absent key 201/0, which ends at the same leaf. *)
Definition p26 : pproof := {| p_results := [NonLeaf (kk 200 3) (cc 3) 1; Inc 1];
  p_elements := p_elements (fst (get ({| p_results := []; p_elements := [] |}, []) (search (full toy32) 32 store1 1 [kk 200 3]))) |}.
Definition p27 : pproof := {| p_results := [NonLeaf (kk 200 3) (cc 3) 1]; p_elements := p_elements p26 |}.

Lemma c26_witness :
  wfProof 32 p26 /\
  Evaluate (restrict toy32 tab1) 32 [(kk 201 0, []); (kk 200 3, cc 77)] p26 = Ok root1 /\
  In ((kk 200 3, cc 77), Inc 1) (combine [(kk 201 0, []); (kk 200 3, cc 77)] (p_results p26)) /\
  assoc (contents trie1) (kk 200 3) = Some (cc 3) /\ cc 77 <> cc 3.
Proof.
  split; [|split; [|split; [|split]]].
  - split; [repeat constructor|]. intros v c d [E|[E|[]]]; [|discriminate E]. injection E as <- <- <-. split; reflexivity.
  - vm_compute. reflexivity.
  - right. left. reflexivity.
  - vm_compute. reflexivity.
  - vm_compute. discriminate.
Qed.

Lemma c27_witness :
  wfProof 32 p27 /\
  Evaluate (restrict toy32 tab1) 32 [(kk 200 3, [])] p27 = Ok root1 /\
  assoc (contents trie1) (kk 200 3) = Some (cc 3).
Proof.
  split; [|split].
  - split; [repeat constructor|]. intros v c d [E|[]]. injection E as <- <- <-. split; reflexivity.
  - vm_compute. reflexivity.
  - vm_compute. reflexivity.
Qed.

(** An auditor is sent an addition of 200/3 together with a proof showing its own leaf. *)
Lemma c29_witness : exists msg, EvaluateBeforeAfter (full toy32) 32 [(kk 200 3, cc 77)] [] p27 = Panic msg.
Proof. eexists. vm_compute. reflexivity. Qed.
(** The same with a different leaf, off the search path: 100/0 is in the other half of the tree. *)
Definition p29 : pproof :=
  {| p_results := [NonLeaf (n2b 72 :: tl (kk 200 3)) (cc 3) 1]; p_elements := p_elements p26 |}.
Lemma c29_witness2 : exists msg, EvaluateBeforeAfter (full toy32) 32 [(kk 200 3, cc 77)] [] p29 = Panic msg.
Proof. eexists. vm_compute. reflexivity. Qed.

(** The empty mutation of version 1. *)
Definition m4 := Eval vm_compute in get ([], {| p_results := []; p_elements := [] |}, [], []) (mutate (full toy32) 32 store1 1 [] []).
Lemma m4_ok : mutate (full toy32) 32 store1 1 [] [] = Ok m4.
Proof. vm_compute. reflexivity. Qed.
Lemma m4_root : fst (fst (fst m4)) = [].
Proof. reflexivity. Qed.
Lemma m4_search : exists msg, search (full toy32) 32 (snd m4) 2 [kk 1 2] = Fail msg.
Proof. eexists. vm_compute. reflexivity. Qed.

Definition kkRem : list entry := [(kk 1 2, cc 1)].
Lemma c28_witness : exists h, EvaluateBeforeAfter (full toy32) 32 [(kk 7 2, cc 9)] kkRem proof2 = Ok (root1, h) /\ h <> root2.
Proof. eexists. split; [vm_compute; reflexivity|]. vm_compute. discriminate. Qed.

(** Replacing the commitment of a key. *)
Definition m5 := Eval vm_compute in get ([], {| p_results := []; p_elements := [] |}, [], []) (mutate (full toy32) 32 store1 1 [(kk 1 2, cc 9)] [kk 1 2]).
Lemma m5_ok : mutate (full toy32) 32 store1 1 [(kk 1 2, cc 9)] [kk 1 2] = Ok m5.
Proof. vm_compute. reflexivity. Qed.
Lemma m5_audit : exists msg, EvaluateBeforeAfter (full toy32) 32 [(kk 1 2, cc 9)] kkRem (snd (fst (fst m5))) = Fail msg.
Proof. eexists. vm_compute. reflexivity. Qed.

Lemma c28_refuted :
  exists f hs s past m h add rem root proof coms s',
    (forall x, List.length (f x) = hs) /\ hist f hs s (past ++ [(m, h)]) /\
    mutate (full f) hs s (lenN past) add rem = Ok (root, proof, coms, s') /\ NoDup (map fst add ++ rem) /\
    EvaluateBeforeAfter (full f) hs add (combine rem coms) proof <> Ok (h, root).
Proof.
  exists toy32, 32%nat, store1, [(emptyMap, repeat x00 32)], map1, root1, [(kk 7 2, cc 9)], [kk 1 2], root2, proof2, [cc 1], store2.
  split; [exact toy32_len|]. split; [exact hist1|]. split; [exact m2_ok|]. split; [apply distinct_ok; vm_compute; reflexivity|].
  destruct c28_witness as [h [E N]]. intro Q. apply N. change (combine [kk 1 2] [cc 1]) with kkRem in Q. rewrite E in Q. injection Q as Q. exact Q.
Qed.

Lemma c28_replace :
  exists f hs s past m h add rem root proof coms s',
    (forall x, List.length (f x) = hs) /\ hist f hs s (past ++ [(m, h)]) /\
    mutate (full f) hs s (lenN past) add rem = Ok (root, proof, coms, s') /\
    exists msg, EvaluateBeforeAfter (full f) hs add (combine rem coms) proof = Fail msg.
Proof.
  exists toy32, 32%nat, store1, [(emptyMap, repeat x00 32)], map1, root1, [(kk 1 2, cc 9)], [kk 1 2], (fst (fst (fst m5))), (snd (fst (fst m5))), [cc 1], (snd m5).
  split; [exact toy32_len|]. split; [exact hist1|]. split; [exact m5_ok|]. exact m5_audit.
Qed.

Lemma c29_refuted :
  exists f hs add p msg, (forall x, List.length (f x) = hs) /\ wfProof hs p /\
    (forall r, In r (p_results p) -> rincl r = false /\ (rdepth r <= 255)%nat) /\
    EvaluateBeforeAfter (full f) hs add [] p = Panic msg.
Proof.
  destruct c29_witness as [msg E]. exists toy32, 32%nat, [(kk 200 3, cc 77)], p27, msg.
  split; [exact toy32_len|]. split; [apply c27_witness|]. split; [|exact E].
  intros r [<-|[]]. split; [reflexivity|]. cbn. lia.
Qed.

Lemma c32_refuted :
  exists f hs s past m h root proof coms s' keys msg,
    (forall x, List.length (f x) = hs) /\ hist f hs s (past ++ [(m, h)]) /\
    mutate (full f) hs s (lenN past) [] [] = Ok (root, proof, coms, s') /\
    root <> h /\ root = [] /\ search (full f) hs s' (lenN past + 1) keys = Fail msg.
Proof.
  destruct m4_search as [msg E].
  exists toy32, 32%nat, store1, [(emptyMap, repeat x00 32)], map1, root1, [], (snd (fst (fst m4))), [], (snd m4), [kk 1 2], msg.
  split; [exact toy32_len|]. split; [exact hist1|]. split; [exact m4_ok|]. split; [discriminate|]. split; [reflexivity|exact E].
Qed.

(** Inputs hashed in evaluating the addition of 7/2. *)
Definition trie3 : trie :=
  TN (chain 4 (skipn 1 (bits (kk 1 2))) (TN (chain 9 (skipn 6 (bits (kk 1 2))) (TN (TL (kk 1 2) (cc 1)) (TL (kk 1 3) (cc 2)))) (TL (kk 7 2) (cc 9)))) (TL (kk 200 3) (cc 3)).
Lemma trie3_root : thash (full toy32) 32 trie3 = Some root3.
Proof. vm_compute. reflexivity. Qed.
Definition dedup (l : list bytes) : list bytes := fold_right (fun x acc => if existsb (bytes_eqb x) acc then acc else x :: acc) [] l.
Definition tab3 : list bytes := Eval vm_compute in dedup (treeInputs toy32 32 trie1 ++ treeInputs toy32 32 trie3).
Lemma c64_example :
  wfProof 32 proof3 /\ noAlias [(kk 7 2, cc 9)] (p_results proof3) /\ p_results proof3 = [NonPar 6] /\
  EvaluateBeforeAfter (restrict toy32 tab3) 32 [(kk 7 2, cc 9)] [] proof3 = Ok (root1, root3) /\
  ~ broken toy32 32 tab3.
Proof.
  split; [|split; [|split; [|split]]].
  - split; [vm_compute; repeat constructor|]. intros v c d I. vm_compute in I. destruct I as [E|[]]. discriminate E.
  - split; [intros e v c d I|intros v c d e r I]; vm_compute in I; destruct I as [E|[]]; discriminate E.
  - vm_compute. reflexivity.
  - vm_compute. reflexivity.
  - apply notBroken. vm_compute. reflexivity.
Qed.

Lemma c26_refuted : exists f hs T t entries p root e r,
    (forall x, List.length (f x) = hs) /\ ~ broken f hs T /\ Canon hs [] t /\ wfProof hs p /\
    thash (restrict f T) hs t = Some root /\ Evaluate (restrict f T) hs entries p = Ok root /\
    In (e, r) (combine entries (p_results p)) /\ rincl r = true /\ assoc (contents t) (fst e) <> Some (snd e).
Proof.
  destruct c26_witness as [W [E [I [A N]]]].
  eexists toy32, 32%nat, tab1, trie1, _, p26, root1, _, _.
  split; [exact toy32_len|]. split; [exact tab1_ok|]. split; [exact trie1_canon|]. split; [exact W|].
  split; [exact trie1_root'|]. split; [exact E|]. split; [exact I|]. split; [reflexivity|].
  intro Q. apply N. cbn [fst snd] in Q. rewrite A in Q. congruence.
Qed.

Lemma c27_refuted : exists f hs T t entries p root e r,
    (forall x, List.length (f x) = hs) /\ ~ broken f hs T /\ Canon hs [] t /\ wfProof hs p /\
    thash (restrict f T) hs t = Some root /\ Evaluate (restrict f T) hs entries p = Ok root /\
    In (e, r) (combine entries (p_results p)) /\ rincl r = false /\ assoc (contents t) (fst e) <> None.
Proof.
  destruct c27_witness as [W [E A]].
  eexists toy32, 32%nat, tab1, trie1, _, p27, root1, _, _.
  split; [exact toy32_len|]. split; [exact tab1_ok|]. split; [exact trie1_canon|]. split; [exact W|].
  split; [exact trie1_root'|]. split; [exact E|]. split; [left; reflexivity|]. split; [reflexivity|].
  intro Q. cbn [fst] in Q. rewrite A in Q. discriminate Q.
Qed.
