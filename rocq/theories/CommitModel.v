(** Model of crypto/commitments/commitments.go, over an explicit HMAC, and of the two places that compute the commitment of
    a label-version pair. *)
From Verif Require Import Base PrefixModel CodecModel.
Local Open Scope string_scope.
Open Scope N_scope.

Section Hash.
(** The hash function of the cipher suite (see PrefixModel.v). *)
Variable H : bytes -> option bytes.

(** crypto/suites/kt_sha256_ed25519.go:26-31, kt_sha256_p256.go:27-32 *)
Definition commitmentFixedBytes : bytes :=
  map n2b [216; 33; 248; 121; 13; 151; 112; 151; 150; 180; 215; 144; 51; 87; 195; 245].

(** crypto/suites/kt_sha256_ed25519.go:23, kt_sha256_p256.go:24 *)
Definition commitmentOpeningSize : nat := 16.

(** [hash.Hash.BlockSize()] of SHA-256 *)
Definition blockSize : nat := 64.

Definition xorByte (k : N) (b : byte) : byte := n2b (N.lxor (b2n b) k).

(** [hmac.New] and [Sum] (crypto/hmac) for a key that is not longer than a block: the key, padded with zeros, is
    combined with 0x36 resp. 0x5c. *)
Definition hmac (key msg : bytes) : res bytes :=
  let padded := (key ++ repeat x00 (blockSize - List.length key))%list in
  let* inner := hash H (map (xorByte 54) padded ++ msg)%list in
  hash H (map (xorByte 92) padded ++ inner)%list.

(** commitments.go:19-25 *)
Definition Commit (opening body : bytes) : res bytes := hmac commitmentFixedBytes (opening ++ body)%list.

(** commitments.go:27-32; [hmac.Equal] compares contents *)
Definition VerifyCommitment (opening body commitment : bytes) : res bool :=
  let* cand := Commit opening body in Ok (bytes_eqb commitment cand).

(** tree/transparency/client_crypto.go:326-342 [computeCommitment] and crypto.go:105-116: the commitment to a
    label-version pair and its value *)
Definition labelCommitment (opening label : bytes) (ver : N) (value : updateValue) : res bytes :=
  let* cv := commitmentValue label ver value in Commit opening cv.

End Hash.
