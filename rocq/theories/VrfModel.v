(** Model of crypto/vrf (the verifiable random functions of RFC 9381 over P-256 and over edwards25519) and of the signature
    encoding of crypto/suites.

    The elliptic curve libraries (filippo.io/nistec, filippo.io/edwards25519), SHA-256, SHA-512 and HMAC are parameters.  A point
    is a value of the abstract type [pt]; the libraries' operations used here are fields of [group]. *)
From Verif Require Import Base.
Local Open Scope string_scope.
Open Scope N_scope.

(** The operations of a curve library: identity, addition, negation, multiplication by a scalar, the base point, the order of the
    base point ([elliptic.P256().Params().N] resp. the order l of edwards25519), [BytesCompressed] resp. [Bytes], and [SetBytes]
    ([None]: it returns an error). *)
Record group := {
  pt : Type;
  pt_zero : pt;
  pt_add : pt -> pt -> pt;
  pt_neg : pt -> pt;
  pt_mul : N -> pt -> pt;
  pt_base : pt;
  pt_q : N;
  pt_enc : pt -> bytes;
  pt_dec : bytes -> option pt;
}.

(** Go's [copy(dst[:n], src)] onto zeros. *)
Definition copyInto (n : nat) (src : bytes) : bytes := (firstn n src ++ repeat x00 (n - List.length src))%list.

(** [if err != nil { panic(err) }] *)
Definition must {A} (r : res A) : res A := match r with Fail m => Panic m | _ => r end.

(** Little-endian integers of the edwards25519 library. *)
Definition unle (l : bytes) : N := unbe (rev l).
Definition le (k : nat) (n : N) : bytes := rev (be k n).

Section P256.
Variable G : group.
Variable sha256 : bytes -> bytes.
(** HMAC-SHA256: key, message (p256.go:52-56) *)
Variable mac : bytes -> bytes -> bytes.

(** p256.go:22-42: the candidate for one value of the counter ([byte(counter)] truncates) *)
Definition p256Candidate (salt m : bytes) (counter : N) : option (pt G) :=
  pt_dec G (x02 :: sha256 ([x01; x01] ++ salt ++ m ++ [n2b counter] ++ [x00]))%list.

(** p256.go:17-50; [fuel] is the number of further rounds *)
Fixpoint p256Encode (fuel : nat) (salt m : bytes) (counter : N) : res (pt G) :=
  match p256Candidate salt m counter with
  | Some point => Ok point
  | None => if counter =? 255 then Panic "encode to curve failed unexpectedly" else
            match fuel with O => Fuel | S f => p256Encode f salt m (counter + 1) end
  end.
Definition p256EncodeToCurve (salt m : bytes) : res (pt G) := p256Encode 256 salt m 0.

(** [vInt.Sign() == 1 && vInt.Cmp(N) == -1] *)
Definition inRange (l : bytes) : bool := (0 <? unbe l) && (unbe l <? pt_q G).

(** p256.go:94-114: the search for an acceptable nonce *)
Fixpoint p256NonceLoop (rounds : nat) (K V : bytes) : res bytes :=
  match rounds with
  | O => Panic "nonce generation failed unexpectedly"
  | S r =>
      let V := mac K V in
      if inRange V then Ok V else
      let K := mac K (V ++ [x00])%list in
      let V := mac K V in
      p256NonceLoop r K V
  end.

(** p256.go:58-114 *)
Definition p256Nonce (priv hStr : bytes) : res bytes :=
  let h1 := sha256 hStr in
  let V := repeat x01 32 in
  let K := repeat x00 32 in
  let K := mac K (V ++ [x00] ++ priv ++ h1)%list in
  let V := mac K V in
  let K := mac K (V ++ [x01] ++ priv ++ h1)%list in
  let V := mac K V in
  p256NonceLoop 256 K V.

(** p256.go:116-132 *)
Definition p256Challenge (p1 p2 p3 p4 p5 : pt G) : bytes :=
  firstn 16 (sha256 ([x01; x02] ++ pt_enc G p1 ++ pt_enc G p2 ++ pt_enc G p3 ++ pt_enc G p4 ++ pt_enc G p5 ++ [x00])%list).

(** p256.go:134-144 *)
Definition p256ProofToHash (gamma : bytes) : bytes := sha256 ([x01; x03] ++ gamma ++ [x00])%list.

(** p256.go:146-149 *)
Record p256Private := { p_scalar : bytes; p_point : pt G }.

(** nistec's [ScalarMult] and [ScalarBaseMult]: the scalar must have 32 bytes and is taken modulo the order *)
Definition scalarMult (p : pt G) (scalar : bytes) : res (pt G) :=
  if Nat.eqb (List.length scalar) 32 then Ok (pt_mul G (unbe scalar) p) else Fail "invalid scalar length".
Definition scalarBaseMult (scalar : bytes) : res (pt G) := scalarMult (pt_base G) scalar.

(** p256.go:163-181 *)
Definition p256NewPrivateKey (raw : bytes) : res p256Private :=
  if negb (Nat.eqb (List.length raw) 32) then Fail "vrf private key is unexpected length" else
  if negb (inRange raw) then Fail "vrf private key is malformed" else
  let* point := scalarBaseMult raw in
  Ok {| p_scalar := raw; p_point := point |}.

(** [sInt.FillBytes(buf)] for a buffer of 32 bytes *)
Definition fillBytes32 (n : N) : res bytes :=
  if n <? 2 ^ 256 then Ok (be 32 n) else Panic "math/big: buffer too small to fit value".

(** p256.go:183-218: output and proof *)
Definition p256Prove (p : p256Private) (m : bytes) : res (bytes * bytes) :=
  let* H := p256EncodeToCurve (pt_enc G (p_point p)) m in
  let hStr := pt_enc G H in
  let* Gamma := must (scalarMult H (p_scalar p)) in
  let* k := p256Nonce (p_scalar p) hStr in
  let* kB := must (scalarBaseMult k) in
  let* kH := must (scalarMult H k) in
  let c := p256Challenge (p_point p) H Gamma kB kH in
  let s := (unbe c * unbe (p_scalar p) + unbe k) mod pt_q G in
  let* sBytes := fillBytes32 s in
  let gamma := copyInto 33 (pt_enc G Gamma) in
  Ok (p256ProofToHash gamma, (gamma ++ copyInto 16 c ++ sBytes)%list).

(** p256.go:220-222: the public key is the point *)
Definition p256PublicKey (p : p256Private) : pt G := p_point p.

(** p256.go:228-241 *)
Definition p256NewPublicKey (raw : bytes) : res (pt G) :=
  if Nat.eqb (List.length raw) 1 then Fail "public key is malformed" else
  of_opt "invalid P256 point encoding" (pt_dec G raw).

(** p256.go:243-299 *)
Definition p256verify (p : pt G) (m proof : bytes) : res unit :=
  if negb (Nat.eqb (List.length proof) 81) then Fail "vrf proof is invalid size" else
  let* Gamma := of_opt "invalid P256 point encoding" (pt_dec G (firstn 33 proof)) in
  let c := (repeat x00 16 ++ firstn 16 (skipn 33 proof))%list in
  let s := skipn 49 proof in
  if negb (inRange s) then Fail "vrf proof is malformed" else
  let* H := p256EncodeToCurve (pt_enc G p) m in
  let* U := scalarBaseMult s in
  let* temp := scalarMult p c in
  let U := pt_add G U (pt_neg G temp) in
  let* V := scalarMult H s in
  let* temp := scalarMult Gamma c in
  let V := pt_add G V (pt_neg G temp) in
  let cPrime := p256Challenge p H Gamma U V in
  if bytes_eqb (skipn 16 c) cPrime then Ok tt else Fail "vrf proof verification failed".

(** p256.go:301-308 *)
Definition p256Verify (p : pt G) (m proof : bytes) : res bytes :=
  let* _ := p256verify p m proof in
  Ok (p256ProofToHash (firstn 33 proof)).

(** p256.go:310 *)
Definition p256Bytes (p : pt G) : bytes := pt_enc G p.
End P256.

Section Edwards25519.
Variable G : group.
Variable sha512 : bytes -> bytes.

(** [MultByCofactor] *)
Definition mult8 (p : pt G) : pt G := pt_mul G 8 p.

(** edwards25519.go:21-36 *)
Definition edCandidate (salt m : bytes) (counter : N) : option (pt G) :=
  pt_dec G (firstn 32 (sha512 ([x03; x01] ++ salt ++ m ++ [n2b counter] ++ [x00])%list)).

(** edwards25519.go:15-45 *)
Fixpoint edEncode (fuel : nat) (salt m : bytes) (counter : N) : res (pt G) :=
  match edCandidate salt m counter with
  | Some point => Ok (mult8 point)
  | None => if counter =? 255 then Panic "encode to curve failed unexpectedly" else
            match fuel with O => Fuel | S f => edEncode f salt m (counter + 1) end
  end.
Definition edEncodeToCurve (salt m : bytes) : res (pt G) := edEncode 256 salt m 0.

(** [Scalar.SetUniformBytes]: 64 bytes, reduced modulo the order *)
Definition setUniformBytes (l : bytes) : res N :=
  if Nat.eqb (List.length l) 64 then Ok (unle l mod pt_q G) else Fail "edwards25519: invalid SetUniformBytes input length".
(** [Scalar.SetBytesWithClamping]: 32 bytes; the lowest three bits and the highest one are cleared, the second highest is set,
    and the number is reduced modulo the order *)
Definition clamp (n : N) : N := 8 * ((n mod 2 ^ 254) / 8) + 2 ^ 254.
Definition setBytesWithClamping (l : bytes) : res N :=
  if Nat.eqb (List.length l) 32 then Ok (clamp (unle l) mod pt_q G) else Fail "edwards25519: invalid SetBytesWithClamping input length".
(** [Scalar.SetCanonicalBytes] *)
Definition setCanonicalBytes (l : bytes) : res N :=
  if negb (Nat.eqb (List.length l) 32) then Fail "invalid scalar length" else
  if unle l <? pt_q G then Ok (unle l) else Fail "invalid scalar encoding".

(** edwards25519.go:47-57 *)
Definition edNonce (lower hStr : bytes) : res N := must (setUniformBytes (sha512 (lower ++ hStr)%list)).

(** edwards25519.go:59-78 *)
Definition edChallenge (p1 p2 p3 p4 p5 : pt G) : bytes :=
  let cStr := sha512 ([x03; x02] ++ pt_enc G p1 ++ pt_enc G p2 ++ pt_enc G p3 ++ pt_enc G p4 ++ pt_enc G p5 ++ [x00])%list in
  (firstn 16 cStr ++ repeat x00 16)%list.

(** edwards25519.go:80-91 *)
Definition edProofToHash (Gamma : pt G) : bytes :=
  firstn 32 (sha512 ([x03; x03] ++ pt_enc G (mult8 Gamma) ++ [x00])%list).

(** edwards25519.go:93-97 *)
Record edPrivate := { e_scalar : N; e_point : pt G; e_upper : bytes }.

(** edwards25519.go:105-118 *)
Definition edNewPrivateKey (raw : bytes) : res edPrivate :=
  if negb (Nat.eqb (List.length raw) 32) then Fail "vrf private key is unexpected length" else
  let h := sha512 raw in
  let* scalar := setBytesWithClamping (firstn 32 h) in
  Ok {| e_scalar := scalar; e_point := pt_mul G scalar (pt_base G); e_upper := skipn 32 h |}.

(** edwards25519.go:120-146; [MultiplyAdd] computes modulo the order *)
Definition edProve (p : edPrivate) (m : bytes) : res (bytes * bytes) :=
  let* H := edEncodeToCurve (pt_enc G (e_point p)) m in
  let hStr := pt_enc G H in
  let Gamma := pt_mul G (e_scalar p) H in
  let* k := edNonce (e_upper p) hStr in
  let kB := pt_mul G k (pt_base G) in
  let kH := pt_mul G k H in
  let c := edChallenge (e_point p) H Gamma kB kH in
  let* s := must (setCanonicalBytes c) in
  let s := (s * e_scalar p + k) mod pt_q G in
  Ok (edProofToHash Gamma, (copyInto 32 (pt_enc G Gamma) ++ firstn 16 c ++ le 32 s)%list).

(** edwards25519.go:148-150 *)
Definition edPublicKey (p : edPrivate) : pt G := e_point p.

(** edwards25519.go:156-170; [Equal] compares points, which here is done on their encodings *)
Definition edNewPublicKey (raw : bytes) : res (pt G) :=
  let* point := of_opt "edwards25519: invalid point encoding" (pt_dec G raw) in
  if bytes_eqb (pt_enc G (mult8 point)) (pt_enc G (pt_zero G)) then Fail "public key is malformed" else Ok point.

(** edwards25519.go:172-217 *)
Definition edVerify (p : pt G) (m proof : bytes) : res bytes :=
  if negb (Nat.eqb (List.length proof) 80) then Fail "vrf proof is invalid size" else
  let* Gamma := of_opt "edwards25519: invalid point encoding" (pt_dec G (firstn 32 proof)) in
  let cBytes := (firstn 16 (skipn 32 proof) ++ repeat x00 16)%list in
  let* c := setCanonicalBytes cBytes in
  let* s := setCanonicalBytes (skipn 48 proof) in
  let* H := edEncodeToCurve (pt_enc G p) m in
  let U := pt_add G (pt_mul G s (pt_base G)) (pt_neg G (pt_mul G c p)) in
  let V := pt_add G (pt_mul G s H) (pt_neg G (pt_mul G c Gamma)) in
  let cPrime := edChallenge p H Gamma U V in
  if bytes_eqb cBytes cPrime then Ok (edProofToHash Gamma) else Fail "vrf proof verification failed".

(** edwards25519.go:219 *)
Definition edBytes (p : pt G) : bytes := pt_enc G p.
End Edwards25519.

(** crypto/suites/kt_sha256_p256.go:64-78: the encoding of an ECDSA signature.  [r.Bytes()] is the shortest big-endian encoding;
    slicing with a negative index panics. *)
Definition p256SignatureBytes (r s : N) : res bytes :=
  if (r <? 2 ^ 256) && (s <? 2 ^ 256) then Ok (be 32 r ++ be 32 s)%list else Panic "slice bounds out of range".
(** kt_sha256_p256.go:90-101: the numbers that are passed to [ecdsa.Verify] *)
Definition p256SignatureNumbers (sig : bytes) : option (N * N) :=
  if Nat.eqb (List.length sig) 64 then Some (unbe (firstn 32 sig), unbe (skipn 32 sig)) else None.

(** crypto/suites/kt_sha256_p256.go:25, kt_sha256_ed25519.go:24 *)
Definition p256VrfProofSize : nat := 81.
Definition edVrfProofSize : nat := 80.
