(** C89: with third-party management, clients accept only values that the operator of the service has signed. *)
From Verif Require Import Base CodecModel CodecSpec LogTreeSpec HandleModel ServerModel ClientModel ClientSpec SignedSpec SignedProofs SignedExamples PrefixExamples MutateExamples ClientExamples.
Open Scope N_scope.
Local Open Scope list_scope.

(** The value a search returns was signed by the operator for the label and the version found. *)
Theorem C89_signed_search : forall H hs c now vrfVerify sigVerify leafVerify audVerify visit Signed,
  okConfig c -> pc_mode c = ThirdPartyManagement -> operatorSigned c leafVerify Signed ->
  forall k state req resp k', okSearchRequest req -> okSearchResponse c (sq_version req) resp ->
  clientSearch H hs c now vrfVerify sigVerify leafVerify audVerify visit k state req resp = Ok k' ->
  exists v, searchedVersion req resp = Ok v /\ Signed (sq_label req) v (uv_value (sr_value resp)).
Proof. exact (fun H hs c now vv sv lv av vi Sg Oc Mo Os k st q r k' => c89_search H hs c now vv sv lv av vi Sg k st q r k' Oc Mo Os). Qed.
Print Assumptions C89_signed_search.

(** The values of an update that its owner accepts were signed by the operator for the label and the versions that follow the greatest known. *)
Theorem C89_signed_update : forall H hs c now vrfVerify sigVerify leafVerify audVerify Signed,
  okConfig c -> pc_mode c = ThirdPartyManagement -> operatorSigned c leafVerify Signed ->
  forall k sv resp out, streamVerify H hs c now vrfVerify sigVerify leafVerify audVerify k sv resp = Ok out ->
  updatedValues sv resp <> [] /\
  forall i val, nth_error (updatedValues sv resp) i = Some val -> Signed (uq_label (ss_req sv)) ((newVersion sv + N.of_nat i) mod 2 ^ 32) val.
Proof. exact (fun H hs c now vv sv lv av Sg Oc Mo Os k s r o => c89_update H hs c now vv sv lv av (fun _ _ => []) Sg k s r o Oc Mo Os). Qed.
Print Assumptions C89_signed_update.

(** In the other modes nothing is accepted that carries such a signature. *)
Theorem C89_unsigned_elsewhere : forall H hs c now vrfVerify sigVerify leafVerify audVerify visit, pc_mode c <> ThirdPartyManagement ->
  (forall k state req resp k', clientSearch H hs c now vrfVerify sigVerify leafVerify audVerify visit k state req resp = Ok k' -> uv_sig (sr_value resp) = None) /\
  (forall k sv resp out, streamVerify H hs c now vrfVerify sigVerify leafVerify audVerify k sv resp = Ok out -> Forall (fun i => ui_sig i = None) (ur_info resp)).
Proof. exact c89_unsigned. Qed.
Print Assumptions C89_unsigned_elsewhere.

(** An operator who has signed one value for the third version of a label: the search for it is accepted with the signature and refused without. *)
Example C89_search_example : okConfig xcm /\ operatorSigned xcm xleaf (fun l v x => (l, v, x) = (la, 2, [x05])) /\
  (exists k', clientSearch (full toy32) 32 xcm 3000 xvv xsv xleaf xsv xvisit emptyClient (Some st3) q3to3 managed = Ok k') /\
  (exists e, clientSearch (full toy32) 32 xcm 3000 xvv xsv xleaf xsv xvisit emptyClient (Some st3) q3to3 (forge (xv x05) r3to3) = Fail e).
Proof. exact c89_example. Qed.

(** The same for an update to the second version. *)
Example C89_update_example : operatorSigned xcm xleaf1 (fun l v x => (l, v, x) = (la, 1, [x07])) /\
  (exists out, streamVerify (full toy32) 32 xcm 3000 xvv xsv xleaf1 xsv emptyClient verifier1 (confirm (Some (toy32 leafTBS1))) = Ok out) /\
  (exists e, streamVerify (full toy32) 32 xcm 3000 xvv xsv xleaf1 xsv emptyClient verifier1 (confirm None) = Fail e).
Proof. exact c89_update_example. Qed.
