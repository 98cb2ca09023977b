(** Concrete groups for VrfProperties.v: the integers modulo n, with toy hash functions. *)
From Coq Require Import Znumtheory Eqdep_dec.
From Verif Require Import Base BaseProofs VrfModel VrfSpec VrfProofs VrfProofs2 VrfProofs3.
Open Scope N_scope.
Local Open Scope list_scope.

Section Residues.
Variable n : N.
Hypothesis Hn : n <> 0.
Definition residue : Type := { x : N | (x <? n) = true }.
Lemma residue_eq (a b : residue) : proj1_sig a = proj1_sig b -> a = b.
Proof. destruct a as [a Ha], b as [b Hb]. cbn. intros ->. f_equal. apply UIP_dec. decide equality. Qed.
Lemma mod_ltb x : (x mod n <? n) = true.
Proof. apply N.ltb_lt, N.mod_lt, Hn. Qed.
Definition mk (x : N) : residue := exist _ (x mod n) (mod_ltb x).
Lemma mk_val x : proj1_sig (mk x) = x mod n. Proof. reflexivity. Qed.
Lemma val_lt (a : residue) : proj1_sig a < n.
Proof. destruct a as [a Ha]. apply N.ltb_lt. exact Ha. Qed.
Lemma val_mk (a : residue) : mk (proj1_sig a) = a.
Proof. apply residue_eq. rewrite mk_val. apply N.mod_small, val_lt. Qed.
Lemma mk_eq x y : x mod n = y mod n -> mk x = mk y.
Proof. intro E. apply residue_eq. exact E. Qed.
Variable b q : N.
Variable enc : N -> bytes.
Variable dec : bytes -> option N.
Definition residues : group := {|
  pt := residue; pt_zero := mk 0; pt_add := fun x y => mk (proj1_sig x + proj1_sig y); pt_neg := fun x => mk (n - proj1_sig x);
  pt_mul := fun k x => mk (k * proj1_sig x); pt_base := mk b; pt_q := q; pt_enc := fun x => enc (proj1_sig x); pt_dec := fun l => option_map mk (dec l) |}.
Lemma residues_lawful cof : n = cof * q -> b * q mod n = 0 -> b mod n <> 0 -> 1 < q -> lawful residues cof.
Proof.
  intros En Hb Hb' Hq. constructor; cbn; auto; intros.
  - apply mk_eq. rewrite N.add_mod_idemp_r, N.add_mod_idemp_l by exact Hn. f_equal. lia.
  - f_equal. lia.
  - apply val_mk.
  - apply mk_eq. pose proof (val_lt a). rewrite N.add_mod_idemp_l by exact Hn. replace (n - proj1_sig a + proj1_sig a) with (1 * n) by lia. rewrite N.mod_mul, N.mod_0_l by exact Hn. reflexivity.
  - rewrite <- (val_mk a) at 2. f_equal; try (destruct (proj1_sig a); reflexivity).
  - apply mk_eq. rewrite N.add_mod_idemp_r, N.add_mod_idemp_l by exact Hn. f_equal. ring.
  - apply mk_eq. rewrite N.mul_mod_idemp_r by exact Hn. f_equal. ring.
  - apply mk_eq. rewrite <- En, N.mul_comm, N.mod_mul, N.mod_0_l by exact Hn. reflexivity.
  - intro C. apply Hb'. pose proof (f_equal (@proj1_sig _ _) C) as C'. rewrite !mk_val, N.mod_0_l in C' by exact Hn. exact C'.
  - apply mk_eq. rewrite N.mul_mod_idemp_r by exact Hn. rewrite N.mul_comm, Hb, N.mod_0_l by exact Hn. reflexivity.
Qed.
Lemma residues_prime cof : b = cof -> prime (Z.of_N q) -> ~ (Z.of_N q | Z.of_N cof)%Z -> primeOrder residues cof.
Proof.
  intros Eb Hp Hc. constructor; auto. intro a. exists (proj1_sig a). cbn. apply mk_eq. rewrite N.mul_mod_idemp_r by exact Hn. f_equal. rewrite Eb. apply N.mul_comm.
Qed.
End Residues.

Lemma prime251 : prime 251.
Proof.
  apply prime_alt. split; [lia|]. intros m Hm [k Hk]. assert (T : forallb (fun i => negb (251 mod i =? 0)%Z) (map Z.of_nat (seq 2 249)) = true) by (vm_compute; reflexivity).
  rewrite forallb_forall in T. assert (Im : In m (map Z.of_nat (seq 2 249))) by (rewrite <- (Z2Nat.id m) by lia; apply in_map, in_seq; lia).
  apply T in Im. rewrite Hk, Z_mod_mult in Im. discriminate Im.
Qed.

(** ** P-256: the integers modulo 251 *)
Definition sum (l : bytes) : N := fold_left (fun a x => (3 * a + b2n x) mod 250) l 0.
Definition sha32 (x : bytes) : bytes := match x with x01 :: x02 :: _ => be 16 (sum x) ++ be 16 (sum x) | _ => be 32 (1 + sum x) end.
Definition mac32 (k x : bytes) : bytes := be 32 (1 + (7 * sum k + sum x) mod 250).
Definition enc33 (x : N) : bytes := if x =? 0 then [x00] else x02 :: be 32 x.
Definition dec33 (l : bytes) : option N :=
  match l with
  | t :: r => if Byte.eqb t x02 && Nat.eqb (List.length r) 32 && (0 <? unbe r) && (unbe r <? 251) then Some (unbe r) else None
  | [] => None
  end.
Lemma n251 : 251 <> 0. Proof. discriminate. Qed.
Definition G251 : group := residues 251 n251 1 251 enc33 dec33.
Lemma G251_lawful : lawful G251 1.
Proof. apply residues_lawful; try reflexivity; discriminate. Qed.
Lemma G251_prime : primeOrder G251 1.
Proof. apply residues_prime; [reflexivity|exact prime251|]. intros [k Hk]. lia. Qed.
Lemma G251_encoding : p256Encoding G251.
Proof.
  assert (Z0 : forall a : pt G251, a <> pt_zero G251 -> 0 < proj1_sig a < 251).
  { intros a Ha. pose proof (val_lt 251 a) as Hl. split; [|exact Hl]. destruct (N.eq_dec (proj1_sig a) 0) as [E|]; [|lia]. exfalso. apply Ha. apply residue_eq. rewrite E. reflexivity. }
  assert (U : forall x, x < 251 -> unbe (be 32 x) = x).
  { intros x Hx. apply unbe_be. apply (N.lt_trans _ 251); [exact Hx|reflexivity]. }
  constructor; cbn [pt_enc pt_dec G251 residues pt_q].
  - intros a Ha. apply Z0 in Ha. unfold enc33. destruct (N.eqb_spec (proj1_sig a) 0); [lia|]. cbn [List.length]. rewrite be_length. reflexivity.
  - intros a Ha. apply Z0 in Ha as [H0 H1]. unfold enc33. destruct (N.eqb_spec (proj1_sig a) 0); [lia|]. unfold dec33. rewrite be_length, U by exact H1.
    apply N.ltb_lt in H0 as H0', H1 as H1'. rewrite H0', H1'. change (Some (mk 251 n251 (proj1_sig a)) = Some a). rewrite val_mk. reflexivity.
  - intros l a Ll Ed. unfold dec33 in Ed. destruct l as [|t r]; [discriminate|]. destruct (Byte.eqb t x02) eqn:Et; [|discriminate].
    destruct (Nat.eqb_spec (List.length r) 32) as [Lr|]; [|discriminate]. destruct (N.ltb_spec 0 (unbe r)) as [H0|]; [|discriminate]. destruct (N.ltb_spec (unbe r) 251) as [H1|]; [|discriminate].
    cbn [andb option_map] in Ed. injection Ed as <-. apply byte_eqb_spec in Et. subst t. rewrite mk_val, N.mod_small by exact H1. split.
    + unfold enc33. destruct (N.eqb_spec (unbe r) 0); [lia|]. f_equal. rewrite <- Lr. apply be_unbe.
    + intro C. apply (f_equal (@proj1_sig _ _)) in C. cbn in C. rewrite N.mod_small in C by exact H1. cbn in C. lia.
  - reflexivity.
Qed.
Lemma sha32_len x : List.length (sha32 x) = 32%nat.
Proof. unfold sha32. repeat match goal with |- context [match ?y with _ => _ end] => destruct y end; rewrite ?app_length, ?be_length; reflexivity. Qed.
Lemma mac32_len k x : List.length (mac32 k x) = 32%nat. Proof. apply be_length. Qed.

Definition key251 : bytes := be 32 18.
Definition sk251 : p256Private G251 := Build_p256Private G251 key251 (mk 251 n251 18).
Lemma sk251_ok : p256NewPrivateKey G251 key251 = Ok sk251.
Proof. vm_compute. reflexivity. Qed.
(** A message with its output and proof, ... *)
Definition proved251 (m : bytes) : bytes * bytes := match p256Prove G251 sha32 mac32 sk251 m with Ok r => r | _ => ([], []) end.
Definition msg1 : bytes := [x01; x02; x03].
Lemma proved251_ok : p256Prove G251 sha32 mac32 sk251 msg1 = Ok (proved251 msg1) /\ unbe (skipn 49 (snd (proved251 msg1))) <> 0.
Proof. split; vm_compute; [reflexivity|discriminate]. Qed.
(** ... and one whose proof has the response zero, which the verifier refuses. *)
Definition msg0 : bytes := be 2 103.
Lemma refused251 : p256Prove G251 sha32 mac32 sk251 msg0 = Ok (proved251 msg0) /\
  p256Verify G251 sha32 (p256PublicKey G251 sk251) msg0 (snd (proved251 msg0)) = Fail "vrf proof is malformed"%string.
Proof. split; vm_compute; reflexivity. Qed.
Lemma p256_refused : exists G sha256 mac raw sk m out proof, lawful G 1 /\ primeOrder G 1 /\ p256Encoding G /\
  (forall x, List.length (sha256 x) = 32%nat) /\ (forall k x, List.length (mac k x) = 32%nat) /\
  p256NewPrivateKey G raw = Ok sk /\ p256Prove G sha256 mac sk m = Ok (out, proof) /\
  p256Verify G sha256 (p256PublicKey G sk) m proof = Fail "vrf proof is malformed"%string.
Proof.
  exists G251, sha32, mac32, key251, sk251, msg0, (fst (proved251 msg0)), (snd (proved251 msg0)).
  split; [exact G251_lawful|]. split; [exact G251_prime|]. split; [exact G251_encoding|]. split; [exact sha32_len|]. split; [exact mac32_len|]. split; [exact sk251_ok|].
  destruct refused251 as [A B]. split; [rewrite A; apply f_equal, surjective_pairing|exact B].
Qed.

(** ** edwards25519: the integers modulo 8 q *)
Definition dec32 (n : N) (l : bytes) : option N := if Nat.eqb (List.length l) 32 && (unle l <? n) then Some (unle l) else None.
Lemma dec32_encoding n (Hn : n <> 0) b q : n <= 2 ^ 256 -> q < 2 ^ 256 -> edEncoding (residues n Hn b q (le 32) (dec32 n)).
Proof.
  intros H1 H2. constructor; cbn [pt_enc pt_dec residues pt_q]; [intro; apply le_len| |exact H2].
  intro a. unfold dec32. rewrite le_len. pose proof (val_lt n a) as Hl. rewrite unle_le by (change (256 ^ N.of_nat 32) with (2 ^ 256); lia).
  apply N.ltb_lt in Hl. rewrite Hl. cbn [Nat.eqb andb option_map]. rewrite val_mk. reflexivity.
Qed.
Lemma n2008 : 2008 <> 0. Proof. discriminate. Qed.
Definition E251 : group := residues 2008 n2008 8 251 (le 32) (dec32 2008).
Lemma E251_lawful : lawful E251 8.
Proof. apply residues_lawful; try reflexivity; discriminate. Qed.
Lemma E251_prime : primeOrder E251 8.
Proof. apply residues_prime; [reflexivity|exact prime251|]. intros [k Hk]. lia. Qed.
Lemma E251_encoding : edEncoding E251.
Proof. apply dec32_encoding; [discriminate|reflexivity]. Qed.
Definition sha64 (x : bytes) : bytes := le 64 (1 + sum x).
Lemma sha64_len x : List.length (sha64 x) = 64%nat. Proof. apply le_len. Qed.
Definition skE : edPrivate E251 := match edNewPrivateKey E251 sha64 key251 with Ok k => k | _ => Build_edPrivate E251 0 (pt_zero E251) [] end.
Lemma skE_ok : edNewPrivateKey E251 sha64 key251 = Ok skE /\ e_scalar E251 skE <> 0.
Proof. split; vm_compute; [reflexivity|discriminate]. Qed.
Definition provedE : bytes * bytes := match edProve E251 sha64 skE msg1 with Ok r => r | _ => ([], []) end.
Lemma provedE_ok : edProve E251 sha64 skE msg1 = Ok provedE.
Proof. vm_compute. reflexivity. Qed.

(** The order of the base point of edwards25519. *)
Definition order25519 : N := 2 ^ 252 + 27742317777372353535851937790883648493.
Lemma n25519 : 8 * order25519 <> 0. Proof. discriminate. Qed.
Definition E25519 : group := residues (8 * order25519) n25519 8 order25519 (le 32) (dec32 (8 * order25519)).
Lemma E25519_lawful : lawful E25519 8.
Proof. apply residues_lawful; try reflexivity; discriminate. Qed.

(** Signatures: r and s are numbers below the group order, hence below 2^256. *)
Lemma signature_roundtrip r s : r < 2 ^ 256 -> s < 2 ^ 256 -> exists sig, p256SignatureBytes r s = Ok sig /\ List.length sig = 64%nat /\ p256SignatureNumbers sig = Some (r, s).
Proof.
  intros Hr Hs. unfold p256SignatureBytes. apply N.ltb_lt in Hr as Hr', Hs as Hs'. rewrite Hr', Hs'. cbn [andb]. eexists. split; [reflexivity|].
  assert (El : List.length (be 32 r ++ be 32 s) = 64%nat) by (rewrite app_length, !be_length; reflexivity). split; [exact El|].
  unfold p256SignatureNumbers. rewrite El. rewrite (firstn_app_exact _ _ 32 (be_length _ _)), (skipn_app_exact _ _ 32 (be_length _ _)).
  rewrite !unbe_be by assumption. reflexivity.
Qed.
