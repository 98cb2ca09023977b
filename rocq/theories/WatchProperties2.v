(** C83 (accepted responses contain nothing unused) and the comparison of roots by the prefix tree verifier (C25). *)
From Verif Require Import Base PrefixModel CodecModel AlgModel HandleModel WatchExamples WatchProofs6.

(** C83.  When a response is accepted, every timestamp and every prefix proof in it has been used, and it contains exactly one root
    for every entry inspected whose root was not yet known. *)
Theorem C83_nothing_left_over : forall H hs d n nP m out, dpFinish H hs d n nP m = Ok out ->
  r_ts (d_handle d) = [] /\ r_proofs (d_handle d) = [] /\
  List.length (r_roots (d_handle d)) = List.length (filter (fun x => negb (mhas (d_roots d) x)) (filter (fun x => negb (mhas (d_retained d) x)) (map fst (d_ts d)))).
Proof. exact finish_used. Qed.
Print Assumptions C83_nothing_left_over.

(** The proof of an honest search response is used up; with one more timestamp it is refused. *)
Example C83_nonvacuous : exists H hs d n nP m out, dpFinish H hs d n nP m = Ok out /\ List.length (d_ts d) = 2%nat /\
  dpFinish H hs (withHandle d (anotherTimestamp (d_handle d))) n nP m = Fail "unexpected additional timestamps found".
Proof. exact c83_example. Qed.

(** Comparing a prefix proof with an expected root accepts exactly the root it evaluates to. *)
Theorem C25_verify_exact : forall H hs entries p root, Verify H hs entries p root = Ok tt <-> Evaluate H hs entries p = Ok root.
Proof. exact verify_iff. Qed.
Print Assumptions C25_verify_exact.
