(** C77-C80: the verifiable random functions.  Statements only; proofs in VrfProofs*.v, specification in VrfSpec.v. *)
From Verif Require Import Base VrfModel VrfSpec VrfProofs2 VrfProofs3 VrfProofs4 VrfExamples.
Open Scope N_scope.

(** C77 is false in one case: a proof whose response is zero modulo the group order is refused (RFC 9381 accepts it) ... *)
Theorem C77_p256_refuted : exists G sha256 mac raw sk m out proof, lawful G 1 /\ primeOrder G 1 /\ p256Encoding G /\
  (forall x, List.length (sha256 x) = 32%nat) /\ (forall k x, List.length (mac k x) = 32%nat) /\
  p256NewPrivateKey G raw = Ok sk /\ p256Prove G sha256 mac sk m = Ok (out, proof) /\
  p256Verify G sha256 (p256PublicKey G sk) m proof = Fail "vrf proof is malformed"%string.
Proof. exact p256_refused. Qed.
Print Assumptions C77_p256_refuted.

(** ... and true in all others: the proof has the size announced by the cipher suite and the public key accepts it with the same
    output. *)
Theorem C77_p256_partial : forall G sha256 mac, lawful G 1 -> primeOrder G 1 -> p256Encoding G ->
  (forall x, List.length (sha256 x) = 32%nat) -> (forall k x, List.length (mac k x) = 32%nat) ->
  forall raw sk m out proof, p256NewPrivateKey G raw = Ok sk -> p256Prove G sha256 mac sk m = Ok (out, proof) ->
  List.length proof = p256VrfProofSize /\
  p256Verify G sha256 (p256PublicKey G sk) m proof = (if unbe (skipn 49 proof) =? 0 then Fail "vrf proof is malformed"%string else Ok out).
Proof. exact p256_complete. Qed.
Print Assumptions C77_p256_partial.

Example C77_p256_example : lawful G251 1 /\ primeOrder G251 1 /\ p256Encoding G251 /\ (forall x, List.length (sha32 x) = 32%nat) /\
  (forall k x, List.length (mac32 k x) = 32%nat) /\ p256NewPrivateKey G251 key251 = Ok sk251 /\
  p256Prove G251 sha32 mac32 sk251 msg1 = Ok (proved251 msg1) /\ unbe (skipn 49 (snd (proved251 msg1))) <> 0.
Proof. exact (conj G251_lawful (conj G251_prime (conj G251_encoding (conj sha32_len (conj mac32_len (conj sk251_ok proved251_ok)))))). Qed.

(** For edwards25519 there is no exception. *)
Theorem C77_edwards25519 : forall G sha512, lawful G 8 -> edEncoding G -> (forall x, List.length (sha512 x) = 64%nat) ->
  forall raw sk m out proof, edNewPrivateKey G sha512 raw = Ok sk -> edProve G sha512 sk m = Ok (out, proof) ->
  List.length proof = edVrfProofSize /\ edVerify G sha512 (edPublicKey G sk) m proof = Ok out.
Proof. exact ed_complete. Qed.
Print Assumptions C77_edwards25519.

Example C77_edwards25519_example : lawful E251 8 /\ edEncoding E251 /\ (forall x, List.length (sha64 x) = 64%nat) /\
  edNewPrivateKey E251 sha64 key251 = Ok skE /\ edProve E251 sha64 skE msg1 = Ok provedE.
Proof. exact (conj E251_lawful (conj E251_encoding (conj sha64_len (conj (proj1 skE_ok) provedE_ok)))). Qed.

(** C78: what an accepted proof says, under any public key (also a malicious one): the output is that of a point that is the point
    of the message multiplied by the secret key that belongs to the public key, unless somebody found commitments for which the
    challenge hash is the only challenge that can be answered. *)
Theorem C78_p256 : forall G sha256, lawful G 1 -> primeOrder G 1 -> p256Encoding G -> (forall x, List.length (sha256 x) = 32%nat) ->
  forall Y m proof out, p256Verify G sha256 Y m proof = Ok out ->
  exists h gamma, messagePoint G x01 sha256 1 (p256Point G) Y m h /\ pt_dec G (firstn 33 proof) = Some gamma /\
    out = outputOf G x01 sha256 1 gamma /\ (rightPoint G 1 Y h gamma \/ guessed G (p256Number G sha256) Y h gamma).
Proof. exact p256_sound'. Qed.
Print Assumptions C78_p256.

Theorem C78_edwards25519 : forall G sha512, lawful G 8 -> (forall x, List.length (sha512 x) = 64%nat) -> primeOrder G 8 ->
  forall Y m proof out, edVerify G sha512 Y m proof = Ok out ->
  exists h gamma, messagePoint G x03 sha512 8 (edPoint G) Y m h /\ pt_dec G (firstn 32 proof) = Some gamma /\
    out = outputOf G x03 sha512 8 gamma /\ (rightPoint G 8 Y h gamma \/ guessed G (edNumber G sha512) Y h gamma).
Proof. exact ed_sound'. Qed.
Print Assumptions C78_edwards25519.

(** So under any public key a message has one output, ... *)
Theorem C78_p256_unique : forall G sha256, lawful G 1 -> primeOrder G 1 -> p256Encoding G ->
  forall Y m proof out proof' out', p256Verify G sha256 Y m proof = Ok out -> p256Verify G sha256 Y m proof' = Ok out' ->
  out = out' \/ exists h gamma, messagePoint G x01 sha256 1 (p256Point G) Y m h /\
    (pt_dec G (firstn 33 proof) = Some gamma \/ pt_dec G (firstn 33 proof') = Some gamma) /\ guessed G (p256Number G sha256) Y h gamma.
Proof. exact p256_unique'. Qed.
Print Assumptions C78_p256_unique.

Theorem C78_edwards25519_unique : forall G sha512, lawful G 8 -> (forall x, List.length (sha512 x) = 64%nat) -> primeOrder G 8 ->
  forall Y m proof out proof' out', edVerify G sha512 Y m proof = Ok out -> edVerify G sha512 Y m proof' = Ok out' ->
  out = out' \/ exists h gamma, messagePoint G x03 sha512 8 (edPoint G) Y m h /\
    (pt_dec G (firstn 32 proof) = Some gamma \/ pt_dec G (firstn 32 proof') = Some gamma) /\ guessed G (edNumber G sha512) Y h gamma.
Proof. exact ed_unique'. Qed.
Print Assumptions C78_edwards25519_unique.

(** ... which under an honest key is the one the key computes. *)
Theorem C78_p256_honest : forall G sha256 mac, lawful G 1 -> primeOrder G 1 -> p256Encoding G ->
  (forall x, List.length (sha256 x) = 32%nat) -> (forall k x, List.length (mac k x) = 32%nat) ->
  forall raw sk m out proof out' proof', p256NewPrivateKey G raw = Ok sk -> p256Prove G sha256 mac sk m = Ok (out, proof) ->
  p256Verify G sha256 (p256PublicKey G sk) m proof' = Ok out' ->
  out' = out \/ exists h gamma, messagePoint G x01 sha256 1 (p256Point G) (p256PublicKey G sk) m h /\
    pt_dec G (firstn 33 proof') = Some gamma /\ guessed G (p256Number G sha256) (p256PublicKey G sk) h gamma.
Proof. exact (fun G sha256 mac L PO E Hsha Hmac => p256_honest_output' G sha256 L PO E Hsha mac Hmac). Qed.
Print Assumptions C78_p256_honest.

Theorem C78_edwards25519_honest : forall G sha512, lawful G 8 -> edEncoding G -> (forall x, List.length (sha512 x) = 64%nat) -> primeOrder G 8 ->
  forall raw sk m out proof out' proof', edNewPrivateKey G sha512 raw = Ok sk -> edProve G sha512 sk m = Ok (out, proof) ->
  edVerify G sha512 (edPublicKey G sk) m proof' = Ok out' ->
  out' = out \/ exists h gamma, messagePoint G x03 sha512 8 (edPoint G) (edPublicKey G sk) m h /\
    pt_dec G (firstn 32 proof') = Some gamma /\ guessed G (edNumber G sha512) (edPublicKey G sk) h gamma.
Proof. exact ed_honest_output'. Qed.
Print Assumptions C78_edwards25519_honest.

(** That output is a function of the key and the message alone. *)
Theorem C78_p256_function : forall G sha256 mac, lawful G 1 -> primeOrder G 1 -> p256Encoding G ->
  (forall x, List.length (sha256 x) = 32%nat) -> (forall k x, List.length (mac k x) = 32%nat) ->
  forall raw sk m out proof, p256NewPrivateKey G raw = Ok sk -> p256Prove G sha256 mac sk m = Ok (out, proof) ->
  p256PublicKey G sk = pt_mul G (unbe raw) (pt_base G) /\
  exists h, messagePoint G x01 sha256 1 (p256Point G) (p256PublicKey G sk) m h /\ out = outputOf G x01 sha256 1 (pt_mul G (unbe raw) h).
Proof. exact (fun G sha256 mac L PO E Hsha Hmac => p256_honest' G sha256 L PO E Hsha mac Hmac). Qed.
Print Assumptions C78_p256_function.

Theorem C78_edwards25519_function : forall G sha512, lawful G 8 -> edEncoding G -> (forall x, List.length (sha512 x) = 64%nat) ->
  forall raw sk m out proof, edNewPrivateKey G sha512 raw = Ok sk -> edProve G sha512 sk m = Ok (out, proof) ->
  edPublicKey G sk = pt_mul G (e_scalar G sk) (pt_base G) /\
  exists h, messagePoint G x03 sha512 8 (edPoint G) (edPublicKey G sk) m h /\ out = outputOf G x03 sha512 8 (pt_mul G (e_scalar G sk) h).
Proof. exact ed_honest'. Qed.
Print Assumptions C78_edwards25519_function.

(** The hypotheses about the groups are met by the groups of the examples, in which the proofs above are accepted. *)
Example C78_example : primeOrder E251 8 /\ primeOrder G251 1.
Proof. exact (conj E251_prime G251_prime). Qed.

(** C79: verification of any bytes ends with a result or an error, unless no candidate point of the message is on the curve (in
    which case the key can not prove anything about the message either). *)
Theorem C79_p256 : forall G sha256 Y m proof, (forall x, List.length (sha256 x) = 32%nat) ->
  (exists out, p256Verify G sha256 Y m proof = Ok out) \/ (exists e, p256Verify G sha256 Y m proof = Fail e) \/
  noCandidate (candidateOf G x01 sha256 (p256Point G) Y m).
Proof. exact (fun G sha256 Y m proof Hsha => p256_verify_total G sha256 (fun _ _ => sha256 []) Hsha (fun _ _ => Hsha []) Y m proof). Qed.
Print Assumptions C79_p256.

Theorem C79_edwards25519 : forall G sha512 Y m proof, (forall x, List.length (sha512 x) = 64%nat) ->
  (exists out, edVerify G sha512 Y m proof = Ok out) \/ (exists e, edVerify G sha512 Y m proof = Fail e) \/
  noCandidate (candidateOf G x03 sha512 (edPoint G) Y m).
Proof. exact (fun G sha512 Y m proof Hsha => ed_verify_total G sha512 Hsha Y m proof). Qed.
Print Assumptions C79_edwards25519.

Theorem C79_p256_prove : forall G sha256 mac, lawful G 1 -> p256Encoding G ->
  (forall x, List.length (sha256 x) = 32%nat) -> (forall k x, List.length (mac k x) = 32%nat) ->
  forall raw sk m, p256NewPrivateKey G raw = Ok sk ->
  (exists out proof, p256Prove G sha256 mac sk m = Ok (out, proof)) \/ noCandidate (candidateOf G x01 sha256 (p256Point G) (p256PublicKey G sk) m) \/
  exists hStr, p256Nonce G sha256 mac raw hStr = Panic "nonce generation failed unexpectedly"%string.
Proof. exact p256_prove_total. Qed.
Print Assumptions C79_p256_prove.

Theorem C79_edwards25519_prove : forall G sha512, (forall x, List.length (sha512 x) = 64%nat) ->
  forall raw sk m, 2 ^ 128 <= pt_q G -> edNewPrivateKey G sha512 raw = Ok sk ->
  (exists out proof, edProve G sha512 sk m = Ok (out, proof)) \/ noCandidate (candidateOf G x03 sha512 (edPoint G) (edPublicKey G sk) m).
Proof. exact ed_prove_total. Qed.
Print Assumptions C79_edwards25519_prove.

(** C80: keys and signatures survive their encodings. *)
Theorem C80_p256_key : forall G, lawful G 1 -> primeOrder G 1 -> p256Encoding G ->
  forall raw sk, p256NewPrivateKey G raw = Ok sk ->
  p256NewPublicKey G (p256Bytes G (p256PublicKey G sk)) = Ok (p256PublicKey G sk) /\ List.length (p256Bytes G (p256PublicKey G sk)) = 33%nat.
Proof. exact p256_public. Qed.
Print Assumptions C80_p256_key.

Theorem C80_edwards25519_key : forall G sha512, lawful G 8 -> edEncoding G -> (forall x, List.length (sha512 x) = 64%nat) -> primeOrder G 8 ->
  forall raw sk, edNewPrivateKey G sha512 raw = Ok sk -> e_scalar G sk <> 0 ->
  edNewPublicKey G (edBytes G (edPublicKey G sk)) = Ok (edPublicKey G sk).
Proof. exact ed_public. Qed.
Print Assumptions C80_edwards25519_key.

(** (The scalar is not zero for an order as large as that of edwards25519.) *)
Theorem C80_edwards25519_scalar : forall G sha512, lawful G 8 -> (forall x, List.length (sha512 x) = 64%nat) -> primeOrder G 8 ->
  forall raw sk, 2 ^ 252 < pt_q G -> edNewPrivateKey G sha512 raw = Ok sk -> e_scalar G sk <> 0.
Proof. exact ed_newPrivate_nonzero. Qed.
Print Assumptions C80_edwards25519_scalar.

Theorem C80_signature : forall r s, r < 2 ^ 256 -> s < 2 ^ 256 ->
  exists sig, p256SignatureBytes r s = Ok sig /\ List.length sig = 64%nat /\ p256SignatureNumbers sig = Some (r, s).
Proof. exact signature_roundtrip. Qed.
Print Assumptions C80_signature.

Example C80_example : edNewPrivateKey E251 sha64 key251 = Ok skE /\ e_scalar E251 skE <> 0 /\ lawful E25519 8 /\ 2 ^ 252 < pt_q E25519.
Proof. exact (conj (proj1 skE_ok) (conj (proj2 skE_ok) (conj E25519_lawful eq_refl))). Qed.
