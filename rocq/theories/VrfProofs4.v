(** The results of VrfProofs2.v and VrfProofs3.v in the words of the specification. *)
From Verif Require Import Base BaseProofs VrfModel VrfSpec VrfProofs VrfProofs2 VrfProofs3.
Open Scope N_scope.

Section P256.
Variable G : group.
Variable sha256 : bytes -> bytes.
Hypothesis L : lawful G 1.

Notation messagePoint := (messagePoint G x01 sha256 1 (p256Point G)).
Notation outputOf := (outputOf G x01 sha256 1).

Lemma p256Encode_point Y m : forall fuel counter h, counter + N.of_nat fuel = 256 -> p256Encode G sha256 fuel (pt_enc G Y) m counter = Ok h ->
  (forall j, j < counter -> p256Candidate G sha256 (pt_enc G Y) m j = None) -> messagePoint Y m h.
Proof.
  induction fuel as [|fuel IH]; intros counter h Hc P Hn; cbn [p256Encode] in P; destruct (p256Candidate G sha256 (pt_enc G Y) m counter) as [h0|] eqn:Ec.
  - exfalso. replace counter with 256 in * by lia. assert (A : p256Candidate G sha256 (pt_enc G Y) m 0 = None) by (apply Hn; lia).
    unfold p256Candidate in A, Ec. change (n2b 256) with (n2b 0) in Ec. congruence.
  - destruct (counter =? 255); discriminate P.
  - injection P as <-. exists counter, h0. split; [lia|]. split; [exact Ec|]. split; [exact Hn|]. symmetry. apply (l_mul1 _ _ L).
  - destruct (N.eqb_spec counter 255); [discriminate P|]. apply (IH (counter + 1) h); [lia|exact P|]. intros j Hj.
    destruct (N.eq_dec j counter) as [->|]; [exact Ec|apply Hn; lia].
Qed.
Lemma p256EncodeToCurve_point Y m h : p256EncodeToCurve G sha256 (pt_enc G Y) m = Ok h -> messagePoint Y m h.
Proof. intro P. apply (p256Encode_point Y m 256 0 h); [reflexivity|exact P|]. intros j Hj. lia. Qed.

Lemma messagePoint_unique Y m h h' : messagePoint Y m h -> messagePoint Y m h' -> h = h'.
Proof.
  intros (i & P & A & B & C & ->) (i' & P' & A' & B' & C' & ->). destruct (N.lt_trichotomy i i') as [T|[->|T]].
  - rewrite (C' _ T) in B. discriminate.
  - congruence.
  - rewrite (C _ T) in B'. discriminate.
Qed.

Hypothesis PO : primeOrder G 1.
Hypothesis E : p256Encoding G.

Lemma p256_unique' Y m proof out proof' out' : p256Verify G sha256 Y m proof = Ok out -> p256Verify G sha256 Y m proof' = Ok out' ->
  out = out' \/ exists h gamma, messagePoint Y m h /\
    (pt_dec G (firstn 33 proof) = Some gamma \/ pt_dec G (firstn 33 proof') = Some gamma) /\ guessed G (p256Number G sha256) Y h gamma.
Proof.
  intros P P'. destruct (p256_unique G sha256 L PO E Y m proof out proof' out' P P') as [A|(h & gamma & A & B & C)]; [left; exact A|].
  right. exists h, gamma. split; [exact (p256EncodeToCurve_point _ _ _ A)|]. split; [exact B|exact C].
Qed.

Hypothesis Hsha : forall x, List.length (sha256 x) = 32%nat.

Lemma p256Output gamma : p256ProofToHash sha256 (pt_enc G gamma) = outputOf gamma.
Proof. unfold outputOf. rewrite (l_mul1 _ _ L). rewrite firstn_all2; [reflexivity|]. rewrite Hsha. lia. Qed.

Lemma p256_sound' Y m proof out : p256Verify G sha256 Y m proof = Ok out ->
  exists h gamma, messagePoint Y m h /\ pt_dec G (firstn 33 proof) = Some gamma /\ out = outputOf gamma /\
    (rightPoint G 1 Y h gamma \/ guessed G (p256Number G sha256) Y h gamma).
Proof.
  intro P. destruct (p256_sound G sha256 L PO E Y m proof out P) as (h & gamma & A & B & C & D). exists h, gamma.
  split; [exact (p256EncodeToCurve_point _ _ _ A)|]. split; [exact B|]. split; [rewrite C; apply p256Output|exact D].
Qed.

Variable mac : bytes -> bytes -> bytes.
Hypothesis Hmac : forall k x, List.length (mac k x) = 32%nat.

Lemma p256_honest' raw sk m out proof : p256NewPrivateKey G raw = Ok sk -> p256Prove G sha256 mac sk m = Ok (out, proof) ->
  p256PublicKey G sk = pt_mul G (unbe raw) (pt_base G) /\
  exists h, messagePoint (p256PublicKey G sk) m h /\ out = outputOf (pt_mul G (unbe raw) h).
Proof.
  intros K P. destruct (newPrivate_ok G raw sk K) as (_ & _ & _ & Ep). split; [exact Ep|].
  destruct (prove_ok G sha256 mac L PO E Hsha Hmac raw sk m out proof K P) as (h & k & c & s & Eh & _ & _ & _ & _ & Eo & _).
  exists h. split; [exact (p256EncodeToCurve_point _ _ _ Eh)|]. rewrite Eo. apply p256Output.
Qed.

Lemma p256_honest_output' raw sk m out proof out' proof' : p256NewPrivateKey G raw = Ok sk -> p256Prove G sha256 mac sk m = Ok (out, proof) ->
  p256Verify G sha256 (p256PublicKey G sk) m proof' = Ok out' ->
  out' = out \/ exists h gamma, messagePoint (p256PublicKey G sk) m h /\ pt_dec G (firstn 33 proof') = Some gamma /\
    guessed G (p256Number G sha256) (p256PublicKey G sk) h gamma.
Proof.
  intros K P V. destruct (p256_honest_output G sha256 mac L PO E Hsha Hmac raw sk m out proof out' proof' K P V) as [A|(h & gamma & A & B)]; [left; exact A|].
  right. exists h, gamma. split; [exact (p256EncodeToCurve_point _ _ _ A)|exact B].
Qed.
End P256.

Section Ed.
Variable G : group.
Variable sha512 : bytes -> bytes.
Hypothesis L : lawful G 8.
Hypothesis E : edEncoding G.
Hypothesis Hsha : forall x, List.length (sha512 x) = 64%nat.

Notation messagePoint := (messagePoint G x03 sha512 8 (edPoint G)).
Notation outputOf := (outputOf G x03 sha512 8).

Lemma edEncode_point Y m : forall fuel counter h, counter + N.of_nat fuel = 256 -> edEncode G sha512 fuel (pt_enc G Y) m counter = Ok h ->
  (forall j, j < counter -> edCandidate G sha512 (pt_enc G Y) m j = None) -> messagePoint Y m h.
Proof.
  induction fuel as [|fuel IH]; intros counter h Hc P Hn; cbn [edEncode] in P; destruct (edCandidate G sha512 (pt_enc G Y) m counter) as [h0|] eqn:Ec.
  - exfalso. replace counter with 256 in * by lia. assert (A : edCandidate G sha512 (pt_enc G Y) m 0 = None) by (apply Hn; lia).
    unfold edCandidate in A, Ec. change (n2b 256) with (n2b 0) in Ec. congruence.
  - destruct (counter =? 255); discriminate P.
  - injection P as <-. exists counter, h0. split; [lia|]. split; [exact Ec|]. split; [exact Hn|reflexivity].
  - destruct (N.eqb_spec counter 255); [discriminate P|]. apply (IH (counter + 1) h); [lia|exact P|]. intros j Hj.
    destruct (N.eq_dec j counter) as [->|]; [exact Ec|apply Hn; lia].
Qed.
Lemma edEncodeToCurve_point Y m h : edEncodeToCurve G sha512 (pt_enc G Y) m = Ok h -> messagePoint Y m h.
Proof. intro P. apply (edEncode_point Y m 256 0 h); [reflexivity|exact P|]. intros j Hj. lia. Qed.

Lemma ed_honest' raw sk m out proof : edNewPrivateKey G sha512 raw = Ok sk -> edProve G sha512 sk m = Ok (out, proof) ->
  edPublicKey G sk = pt_mul G (e_scalar G sk) (pt_base G) /\
  exists h, messagePoint (edPublicKey G sk) m h /\ out = outputOf (pt_mul G (e_scalar G sk) h).
Proof.
  intros K P. destruct (ed_newPrivate_ok G sha512 L Hsha raw sk K) as (Ep & _ & _). split; [exact Ep|].
  destruct (ed_prove_ok G sha512 L E Hsha raw sk m out proof K P) as (h & k & c & Eh & _ & _ & _ & Eo & _).
  exists h. split; [exact (edEncodeToCurve_point _ _ _ Eh)|]. rewrite Eo. reflexivity.
Qed.

Hypothesis PO : primeOrder G 8.
Lemma ed_sound' Y m proof out : edVerify G sha512 Y m proof = Ok out ->
  exists h gamma, messagePoint Y m h /\ pt_dec G (firstn 32 proof) = Some gamma /\ out = outputOf gamma /\
    (rightPoint G 8 Y h gamma \/ guessed G (edNumber G sha512) Y h gamma).
Proof.
  intro P. destruct (ed_sound G sha512 L PO Y m proof out P) as (h & gamma & A & B & C & D). exists h, gamma.
  split; [exact (edEncodeToCurve_point _ _ _ A)|]. split; [exact B|]. split; [exact C|exact D].
Qed.

Lemma ed_unique' Y m proof out proof' out' : edVerify G sha512 Y m proof = Ok out -> edVerify G sha512 Y m proof' = Ok out' ->
  out = out' \/ exists h gamma, messagePoint Y m h /\
    (pt_dec G (firstn 32 proof) = Some gamma \/ pt_dec G (firstn 32 proof') = Some gamma) /\ guessed G (edNumber G sha512) Y h gamma.
Proof.
  intros P P'. destruct (ed_unique G sha512 L PO Y m proof out proof' out' P P') as [A|(h & gamma & A & B & C)]; [left; exact A|].
  right. exists h, gamma. split; [exact (edEncodeToCurve_point _ _ _ A)|]. split; [exact B|exact C].
Qed.

Lemma ed_honest_output' raw sk m out proof out' proof' : edNewPrivateKey G sha512 raw = Ok sk -> edProve G sha512 sk m = Ok (out, proof) ->
  edVerify G sha512 (edPublicKey G sk) m proof' = Ok out' ->
  out' = out \/ exists h gamma, messagePoint (edPublicKey G sk) m h /\ pt_dec G (firstn 32 proof') = Some gamma /\
    guessed G (edNumber G sha512) (edPublicKey G sk) h gamma.
Proof.
  intros K P V. destruct (ed_honest_output G sha512 L E Hsha PO raw sk m out proof out' proof' K P V) as [A|(h & gamma & A & B)]; [left; exact A|].
  right. exists h, gamma. split; [exact (edEncodeToCurve_point _ _ _ A)|exact B].
Qed.
End Ed.
