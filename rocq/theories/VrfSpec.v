(** What is assumed of the curve libraries, and what a verifiable random function promises. *)
From Coq Require Import Znumtheory.
From Verif Require Import Base VrfModel.
Open Scope N_scope.

(** A commutative group on which the numbers act; [cof * q] times any point and [q] times the base point are the identity. *)
Record lawful (G : group) (cof : N) : Prop := {
  l_assoc : forall a b c, pt_add G a (pt_add G b c) = pt_add G (pt_add G a b) c;
  l_comm : forall a b, pt_add G a b = pt_add G b a;
  l_zero : forall a, pt_add G (pt_zero G) a = a;
  l_neg : forall a, pt_add G (pt_neg G a) a = pt_zero G;
  l_mul1 : forall a, pt_mul G 1 a = a;
  l_muladd : forall m n a, pt_mul G (m + n) a = pt_add G (pt_mul G m a) (pt_mul G n a);
  l_mulmul : forall m n a, pt_mul G (m * n) a = pt_mul G m (pt_mul G n a);
  l_pos : 1 < pt_q G;
  l_order : forall a, pt_mul G (cof * pt_q G) a = pt_zero G;
  l_base : pt_base G <> pt_zero G;
  l_baseOrder : pt_mul G (pt_q G) (pt_base G) = pt_zero G;
}.

(** [q] is a prime that does not divide [cof], and [cof] times any point is a multiple of the base point. *)
Record primeOrder (G : group) (cof : N) : Prop := {
  l_prime : prime (Z.of_N (pt_q G));
  l_cof : ~ (Z.of_N (pt_q G) | Z.of_N cof)%Z;
  l_cyclic : forall a, exists k, pt_mul G cof a = pt_mul G k (pt_base G);
}.

(** nistec: points other than the identity have exactly one encoding of 33 bytes, and the identity has none. *)
Record p256Encoding (G : group) : Prop := {
  pe_len : forall a, a <> pt_zero G -> List.length (pt_enc G a) = 33%nat;
  pe_dec : forall a, a <> pt_zero G -> pt_dec G (pt_enc G a) = Some a;
  pe_canon : forall b a, List.length b = 33%nat -> pt_dec G b = Some a -> pt_enc G a = b /\ a <> pt_zero G;
  pe_order : pt_q G < 2 ^ 256;
}.

(** edwards25519: every point has an encoding of 32 bytes (and possibly others, that decode to the same point). *)
Record edEncoding (G : group) : Prop := {
  ee_len : forall a, List.length (pt_enc G a) = 32%nat;
  ee_dec : forall a, pt_dec G (pt_enc G a) = Some a;
  ee_order : pt_q G < 2 ^ 256;
}.

Section Soundness.
Variable G : group.
Variable cof : N.

(** [Gamma] is the multiple of [H] by the secret key that belongs to the public key [Y] (up to points of small order, which [cof]
    removes). *)
Definition rightPoint (Y H Gamma : pt G) : Prop :=
  exists y, pt_mul G cof Y = pt_mul G (y * cof) (pt_base G) /\ pt_mul G cof Gamma = pt_mul G (y * cof) H.

(** [s] answers the challenge [c] for the commitments [U] and [V]: U + c Y = s B and V + c Gamma = s H. *)
Definition answers (Y H Gamma U V : pt G) (c s : N) : Prop :=
  pt_add G U (pt_mul G c Y) = pt_mul G s (pt_base G) /\ pt_add G V (pt_mul G c Gamma) = pt_mul G s H.

(** Somebody found commitments for which the challenge, which is a hash of the commitments, is the only number (modulo the order)
    that can be answered.  For a hash function without structure this succeeds with probability 1 / 2^128 per attempt. *)
Definition guessed (challenge : pt G -> pt G -> pt G -> pt G -> pt G -> N) (Y H Gamma : pt G) : Prop :=
  exists U V s, answers Y H Gamma U V (challenge Y H Gamma U V) s /\
    forall c' s', answers Y H Gamma U V c' s' -> c' mod pt_q G = challenge Y H Gamma U V mod pt_q G.
End Soundness.

(** Every one of the 256 candidate points of a message is rejected by the curve library. *)
Definition noCandidate {P} (candidate : N -> option P) : Prop := forall i, i < 256 -> candidate i = None.

(** ** The hashes of RFC 9381 (sections 5.2, 5.4.1.1 and 5.4.3), for a suite given by its number *)
Section Hashes.
Variable G : group.
Variable suite : byte.
Variable hash : bytes -> bytes.
Variable cof : N.

(** the challenge for five points, [number] being the suite's reading of 16 bytes as a number *)
Definition challengeNumber (number : bytes -> N) (Y H Gamma U V : pt G) : N :=
  number (firstn 16 (hash ([suite; x02] ++ pt_enc G Y ++ pt_enc G H ++ pt_enc G Gamma ++ pt_enc G U ++ pt_enc G V ++ [x00])%list)).

(** the output for the point [Gamma] *)
Definition outputOf (Gamma : pt G) : bytes := firstn 32 (hash ([suite; x03] ++ pt_enc G (pt_mul G cof Gamma) ++ [x00])%list).

(** [h] is the point of the message [m] under the public key [Y]: the first of the candidates numbered 0, ..., 255 that is on the
    curve, [point] being the suite's reading of a hash as a point, multiplied by the cofactor *)
Definition candidateOf (point : bytes -> option (pt G)) (Y : pt G) (m : bytes) (i : N) : option (pt G) :=
  point (hash ([suite; x01] ++ pt_enc G Y ++ m ++ [n2b i] ++ [x00])%list).
Definition messagePoint (point : bytes -> option (pt G)) (Y : pt G) (m : bytes) (h : pt G) : Prop :=
  exists i P, i < 256 /\ candidateOf point Y m i = Some P /\ (forall j, j < i -> candidateOf point Y m j = None) /\ h = pt_mul G cof P.
End Hashes.

(** The two suites. *)
Definition p256Point (G : group) (b : bytes) : option (pt G) := pt_dec G (x02 :: b).
Definition edPoint (G : group) (b : bytes) : option (pt G) := pt_dec G (firstn 32 b).
Definition p256Number (G : group) (sha256 : bytes -> bytes) := challengeNumber G x01 sha256 unbe.
Definition edNumber (G : group) (sha512 : bytes -> bytes) := challengeNumber G x03 sha512 unle.
