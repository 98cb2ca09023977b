(** A concrete log for the examples in LogTreeProperties.v. *)
From Verif Require Import Base LogMathModel LogMathSpec LogTreeModel LogTreeSpec LogTreeProofs3.

(** A toy hash function with 8-byte output. *)
Definition toyHash (x : bytes) : bytes :=
  be 8 (fold_left (fun acc b => (acc * 1000003 + b2n b + 1) mod two64) x 7).

Definition entry (i : N) : bytes := toyHash [n2b i; n2b (i + 3)].
Definition log5 : list bytes := [entry 0; entry 1; entry 2; entry 3; entry 4].

(** Inputs hashed in building [log5]. *)
Definition in01 := (x00 :: entry 0) ++ (x00 :: entry 1).
Definition in23 := (x00 :: entry 2) ++ (x00 :: entry 3).
Definition in0123 := (x01 :: toyHash in01) ++ (x01 :: toyHash in23).
Definition inRoot := (x01 :: toyHash in0123) ++ (x00 :: entry 4).
Definition tbl : list bytes := [in01; in23; in0123; inRoot].

Lemma c63_witness : exists H hs retained entries n nP values proof,
  sized H hs /\ 0 < hs /\
  match retained with Some (m, old) => FullValues H [entry 0; entry 1] m old | None => False end /\
  exists msg, verifyBatch H hs retained entries n nP values proof = Panic msg.
Proof.
  exists (full toyHash), 8, (Some (2, [toyHash in01])), [0], 1, None, [entry 0], [].
  split; [apply full_sized; reflexivity|]. split; [lia|]. split.
  - exists [(0, 2)]. split.
    + apply P_one. exists 1. reflexivity.
    + constructor; [|constructor]. unfold NodeVal.
      change (Mth (full toyHash) ([entry 0] ++ [entry 1]) (toyHash in01)).
      apply Mth_node with (entry 0) (entry 1); [reflexivity|reflexivity|constructor|constructor|reflexivity].
  - eexists. vm_compute. reflexivity.
Qed.
