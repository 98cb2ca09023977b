(** Specification of the reports that a version does not exist. *)
From Verif Require Import Base LaddersModel PrefixModel CodecModel AlgModel HandleModel MutateModel MutateSpec ServerModel ClientModel ClientSpec SoundSpec.
Open Scope N_scope.

(** No leaf of one of the versions looked up that are to be there -- those of the search ladder, up to the version searched for -- is
    shown to prove that some version is not there. *)
Definition noOwnLeaf (vrf : bytes -> bytes * bytes) (req : searchRequest) (resp : searchResponse) : Prop :=
  forall v ladder, searchedVersion req resp = Ok v -> searchBinaryLadder v v [] [] = Ok ladder ->
  forall p k c d, In p (cp_proofs (sr_search resp)) -> In (NonLeaf k c d) (p_results p) ->
  forall w, In w ladder -> w <= v -> k <> keyOf vrf (sq_label req) w.
