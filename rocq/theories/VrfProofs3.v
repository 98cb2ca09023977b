(** The verifiable random function over edwards25519. *)
From Verif Require Import Base BaseProofs VrfModel VrfSpec VrfProofs VrfProofs2.
Open Scope N_scope.
Local Open Scope list_scope.

Lemma unle_le k n : n < 256 ^ N.of_nat k -> unle (le k n) = n.
Proof. intro Hn. unfold unle, le. rewrite rev_involutive. apply unbe_be. exact Hn. Qed.
Lemma le_len k n : List.length (le k n) = k.
Proof. unfold le. rewrite rev_length. apply be_length. Qed.
Lemma unle_zeros k l : unle (l ++ repeat x00 k) = unle l.
Proof.
  unfold unle. rewrite rev_app_distr. replace (rev (repeat x00 k)) with (repeat x00 k); [apply unbe_zeros|].
  induction k as [|k IH]; [reflexivity|]. cbn [repeat rev]. rewrite <- IH. clear. induction k; [reflexivity|]. cbn [repeat app]. congruence.
Qed.
Lemma unle_lt l : unle l < 256 ^ lenN l.
Proof. unfold unle. replace (lenN l) with (lenN (rev l)); [apply unbe_lt|]. unfold lenN. rewrite rev_length. reflexivity. Qed.

Section Ed.
Variable G : group.
Variable sha512 : bytes -> bytes.
Hypothesis L : lawful G 8.
Hypothesis E : edEncoding G.
Hypothesis Hsha : forall x, List.length (sha512 x) = 64%nat.
Notation q := (pt_q G).

Lemma ed_encode_result salt m : forall fuel counter, counter + N.of_nat fuel = 256 -> counter <= 255 ->
  (exists h i, edEncode G sha512 fuel salt m counter = Ok (mult8 G h) /\ i < 256 /\ edCandidate G sha512 salt m i = Some h) \/
  (edEncode G sha512 fuel salt m counter = Panic "encode to curve failed unexpectedly" /\ forall i, counter <= i < 256 -> edCandidate G sha512 salt m i = None).
Proof.
  induction fuel as [|fuel IH]; intros counter Hc Hl; [lia|]. cbn [edEncode]. destruct (edCandidate G sha512 salt m counter) as [h|] eqn:Ec.
  - left. exists h, counter. split; [reflexivity|]. split; [lia|exact Ec].
  - destruct (N.eqb_spec counter 255) as [->|Hn].
    + right. split; [reflexivity|]. intros i Hi. replace i with 255 by lia. exact Ec.
    + destruct (IH (counter + 1) ltac:(lia) ltac:(lia)) as [(h & i & A)|(A & C)]; [left; exists h, i; exact A|right; split; [exact A|]].
      intros i Hi. destruct (N.eq_dec i counter) as [->|]; [exact Ec|apply C; lia].
Qed.
Lemma ed_encodeToCurve_result salt m :
  (exists h i, edEncodeToCurve G sha512 salt m = Ok (mult8 G h) /\ i < 256 /\ edCandidate G sha512 salt m i = Some h) \/
  (edEncodeToCurve G sha512 salt m = Panic "encode to curve failed unexpectedly" /\ noCandidate (edCandidate G sha512 salt m)).
Proof.
  destruct (ed_encode_result salt m 256 0) as [A|[A C]]; [reflexivity|lia|left; exact A|right; split; [exact A|]]. intros i Hi. apply C. lia.
Qed.
Lemma ed_encode_order salt m h : edEncodeToCurve G sha512 salt m = Ok h -> pt_mul G q h = pt_zero G.
Proof.
  intro Eh. destruct (ed_encodeToCurve_result salt m) as [(h' & i & A & _)|[A _]]; [|congruence]. rewrite Eh in A. injection A as ->.
  unfold mult8. rewrite <- (l_mulmul _ _ L), N.mul_comm. apply (l_order _ _ L).
Qed.

Lemma edChallenge_parts a b c d e : exists l, edChallenge G sha512 a b c d e = l ++ repeat x00 16 /\ List.length l = 16%nat.
Proof. unfold edChallenge. eexists. split; [reflexivity|]. rewrite firstn_length, Hsha. reflexivity. Qed.

Lemma canonical_short l : List.length l = 16%nat -> setCanonicalBytes G (l ++ repeat x00 16) = if unle l <? q then Ok (unle l) else Fail "invalid scalar encoding".
Proof. intro Ll. unfold setCanonicalBytes. rewrite app_length, repeat_length, Ll. cbn [Nat.eqb Nat.add negb]. rewrite unle_zeros. reflexivity. Qed.

Lemma ed_newPrivate_ok raw sk : edNewPrivateKey G sha512 raw = Ok sk ->
  e_point G sk = pt_mul G (e_scalar G sk) (pt_base G) /\ e_scalar G sk < q /\ List.length (e_upper G sk) = 32%nat.
Proof.
  unfold edNewPrivateKey. destruct (Nat.eqb (List.length raw) 32); cbn [negb]; [|discriminate]. cbv zeta. unfold setBytesWithClamping. rewrite firstn_length, Hsha. cbn [Nat.min Nat.eqb bind].
  intro X. apply Ok_inj in X as <-. cbn [e_point e_scalar e_upper]. split; [reflexivity|]. split; [apply N.mod_lt; pose proof (q_pos G 8 L); lia|]. rewrite skipn_length, Hsha. reflexivity.
Qed.
Notation edNumber := (edNumber G sha512).
Lemma edNumber_spec p1 p2 p3 p4 p5 : edNumber p1 p2 p3 p4 p5 = unle (edChallenge G sha512 p1 p2 p3 p4 p5).
Proof. unfold edChallenge. cbv zeta. rewrite unle_zeros. reflexivity. Qed.

Local Opaque edEncodeToCurve edChallenge be N.pow unbe unle le.
Lemma ed_prove_ok raw sk m out proof : edNewPrivateKey G sha512 raw = Ok sk -> edProve G sha512 sk m = Ok (out, proof) ->
  exists h k c, edEncodeToCurve G sha512 (pt_enc G (e_point G sk)) m = Ok h /\
    let x := e_scalar G sk in let gamma := pt_mul G x h in
    List.length c = 16%nat /\ unle c < q /\ c ++ repeat x00 16 = edChallenge G sha512 (e_point G sk) h gamma (pt_mul G k (pt_base G)) (pt_mul G k h) /\
    out = edProofToHash G sha512 gamma /\ proof = pt_enc G gamma ++ c ++ le 32 ((unle c * x + k) mod q).
Proof.
  intros K P. destruct (ed_newPrivate_ok raw sk K) as (Ep & Hx & Lu). unfold edProve in P. apply bind_ok in P as (h & Eh & P). cbv zeta in P.
  apply bind_ok in P as (k & Ek & P). match type of P with context [edChallenge G sha512 ?a ?b ?c ?d ?e] => destruct (edChallenge_parts a b c d e) as (l & El & Ll) end.
  rewrite El, (canonical_short l Ll) in P. destruct (N.ltb_spec (unle l) q) as [Hl|]; cbn [must bind] in P; [|discriminate P]. rewrite (copyInto_exact 32) in P by apply (ee_len _ E). rewrite (firstn_app_exact l _ 16 Ll) in P.
  apply Ok_pair in P as [<- <-]. exists h, k, l. split; [exact Eh|]. cbv zeta. split; [exact Ll|]. split; [exact Hl|]. split; [symmetry; exact El|]. split; reflexivity.
Qed.

Lemma ed_complete raw sk m out proof : edNewPrivateKey G sha512 raw = Ok sk -> edProve G sha512 sk m = Ok (out, proof) ->
  List.length proof = edVrfProofSize /\ edVerify G sha512 (edPublicKey G sk) m proof = Ok out.
Proof.
  intros K P. destruct (ed_newPrivate_ok raw sk K) as (Ep & Hx & Lu). destruct (ed_prove_ok raw sk m out proof K P) as (h & k & c & Eh & Lc & Hc & Ec & Eo & Epr).
  pose proof (q_pos G 8 L) as Hq. pose proof (ee_order _ E) as Hq2. set (x := e_scalar G sk) in *. set (gamma := pt_mul G x h) in *.
  set (s := (unle c * x + k) mod q) in *. assert (Hs : s < q) by (apply N.mod_lt; lia).
  pose proof (ee_len _ E gamma) as Lg. pose proof (le_len 32 s) as Ls.
  assert (Lp : List.length proof = 80%nat) by (rewrite Epr, !app_length, Ls, Lg, Lc; reflexivity).
  split; [exact Lp|]. unfold edVerify, edPublicKey. rewrite Lp. cbn [Nat.eqb negb].
  assert (F1 : firstn 32 proof = pt_enc G gamma) by (rewrite Epr; apply firstn_app_exact; exact Lg).
  assert (F2 : skipn 32 proof = c ++ le 32 s) by (rewrite Epr; apply skipn_app_exact; exact Lg).
  assert (F3 : skipn 48 proof = le 32 s) by (rewrite Epr, app_assoc; apply skipn_app_exact; rewrite app_length; lia).
  rewrite F1, F2, F3, (ee_dec _ E). rewrite (firstn_app_exact c _ 16 Lc). cbn [of_opt bind]. rewrite (canonical_short c Lc). replace (unle c <? q) with true by (symmetry; apply N.ltb_lt; exact Hc). cbn [bind].
  assert (Us : unle (le 32 s) = s) by (apply unle_le; change (256 ^ N.of_nat 32) with (2 ^ 256); lia).
  unfold setCanonicalBytes. rewrite Ls, Us. cbn [Nat.eqb negb]. replace (s <? q) with true by (symmetry; apply N.ltb_lt; exact Hs). cbn [bind].
  rewrite Eh. cbn [bind]. assert (X : s mod q = (unle c * x + k) mod q) by (unfold s; rewrite N.mod_mod by lia; reflexivity).
  rewrite Ep. unfold gamma at 2 3. fold x. rewrite !(honest_point G 8 L x k) by (first [apply (l_baseOrder _ _ L)|exact (ed_encode_order _ _ _ Eh)|exact X]).
  rewrite <- Ep. fold gamma. rewrite <- Ec, bytes_eqb_refl, Eo. reflexivity.
Qed.

Lemma ed_accepted Y m proof out : edVerify G sha512 Y m proof = Ok out ->
  exists h gamma U V s, edEncodeToCurve G sha512 (pt_enc G Y) m = Ok h /\ pt_dec G (firstn 32 proof) = Some gamma /\
    out = edProofToHash G sha512 gamma /\ answers G Y h gamma U V (edNumber Y h gamma U V) s.
Proof.
  unfold edVerify. intro P. destruct (Nat.eqb_spec (List.length proof) 80) as [Lp|]; cbn [negb] in P; [|discriminate].
  destruct (pt_dec G (firstn 32 proof)) as [gamma|] eqn:Eg; cbn [of_opt bind] in P; [|discriminate P].
  rewrite canonical_short in P by (rewrite firstn_length, skipn_length, Lp; reflexivity).
  destruct (unle (firstn 16 (skipn 32 proof)) <? q); cbn [bind] in P; [|discriminate P].
  apply bind_ok in P as (s & _ & P). apply bind_ok in P as (h & Eh & P).
  set (c := firstn 16 (skipn 32 proof)) in *.
  match type of P with (if bytes_eqb _ (edChallenge _ _ _ _ _ ?u ?v) then _ else _) = _ => set (U := u) in *; set (V := v) in * end.
  destruct (bytes_eqb (c ++ repeat x00 16) (edChallenge G sha512 Y h gamma U V)) eqn:Ec; [|discriminate]. apply bytes_eqb_eq in Ec.
  exists h, gamma, U, V, s. split; [exact Eh|]. split; [exact eq_refl|]. apply Ok_inj in P. split; [symmetry; exact P|].
  rewrite edNumber_spec, <- Ec, unle_zeros. split; apply (sub_add G 8 L).
Qed.

Hypothesis PO : primeOrder G 8.
Lemma ed_sound Y m proof out : edVerify G sha512 Y m proof = Ok out ->
  exists h gamma, edEncodeToCurve G sha512 (pt_enc G Y) m = Ok h /\ pt_dec G (firstn 32 proof) = Some gamma /\
    out = edProofToHash G sha512 gamma /\ (rightPoint G 8 Y h gamma \/ guessed G edNumber Y h gamma).
Proof.
  intro P. destruct (ed_accepted Y m proof out P) as (h & gamma & U & V & s & A1 & A2 & A3 & A4). exists h, gamma. repeat (split; [assumption|]).
  eapply sound; [exact L|exact PO|exact A4].
Qed.

Lemma ed_unique Y m proof out proof' out' : edVerify G sha512 Y m proof = Ok out -> edVerify G sha512 Y m proof' = Ok out' ->
  out = out' \/ exists h gamma, edEncodeToCurve G sha512 (pt_enc G Y) m = Ok h /\
    (pt_dec G (firstn 32 proof) = Some gamma \/ pt_dec G (firstn 32 proof') = Some gamma) /\ guessed G edNumber Y h gamma.
Proof.
  intros P P'. destruct (ed_sound _ _ _ _ P) as (h & g & A & B & C & [D|D]); [|right; exists h, g; auto].
  destruct (ed_sound _ _ _ _ P') as (h' & g' & A' & B' & C' & [D'|D']); [|right; exists h', g'; auto].
  left. rewrite A in A'. injection A' as <-. pose proof (right_unique G 8 L PO _ _ _ _ D D') as R. rewrite C, C'. unfold edProofToHash, mult8. rewrite R. reflexivity.
Qed.

Lemma ed_honest_output raw sk m out proof out' proof' : edNewPrivateKey G sha512 raw = Ok sk -> edProve G sha512 sk m = Ok (out, proof) ->
  edVerify G sha512 (edPublicKey G sk) m proof' = Ok out' ->
  out' = out \/ exists h gamma, edEncodeToCurve G sha512 (pt_enc G (edPublicKey G sk)) m = Ok h /\ pt_dec G (firstn 32 proof') = Some gamma /\
    guessed G edNumber (edPublicKey G sk) h gamma.
Proof.
  intros K P V. destruct (ed_newPrivate_ok raw sk K) as (Ep & Hx & Lu). destruct (ed_prove_ok raw sk m out proof K P) as (h & k & c & Eh & _ & _ & _ & Eo & _).
  destruct (ed_sound _ _ _ _ V) as (h' & g & A & B & C & [D|D]); [|right; exists h', g; auto]. left. unfold edPublicKey in A. rewrite Eh in A. injection A as <-.
  assert (R : rightPoint G 8 (e_point G sk) h (pt_mul G (e_scalar G sk) h)).
  { exists (e_scalar G sk). split; [rewrite Ep|]; rewrite <- (l_mulmul _ _ L), N.mul_comm; reflexivity. }
  pose proof (right_unique G 8 L PO _ _ _ _ D R) as Q. rewrite C, Eo. unfold edProofToHash, mult8. rewrite Q. reflexivity.
Qed.

Lemma ed_verify_total Y m proof : (exists out, edVerify G sha512 Y m proof = Ok out) \/ (exists e, edVerify G sha512 Y m proof = Fail e) \/
  noCandidate (edCandidate G sha512 (pt_enc G Y) m).
Proof.
  unfold edVerify. destruct (Nat.eqb_spec (List.length proof) 80) as [Lp|]; cbn [negb bind]; [|eauto].
  destruct (pt_dec G (firstn 32 proof)) as [gamma|]; cbn [of_opt bind]; [|eauto].
  unfold setCanonicalBytes. destruct (negb (Nat.eqb (List.length (firstn 16 (skipn 32 proof) ++ repeat x00 16)) 32)); [cbn [bind]; eauto|].
  destruct (unle (firstn 16 (skipn 32 proof) ++ repeat x00 16) <? q); cbn [bind]; [|eauto].
  destruct (negb (Nat.eqb (List.length (skipn 48 proof)) 32)); [cbn [bind]; eauto|]. destruct (unle (skipn 48 proof) <? q); cbn [bind]; [|eauto].
  destruct (ed_encodeToCurve_result (pt_enc G Y) m) as [(h & i & A & _)|[A C]]; [|auto]. rewrite A. cbn [bind].
  destruct (bytes_eqb _ _); eauto.
Qed.
Lemma ed_prove_total raw sk m : 2 ^ 128 <= q -> edNewPrivateKey G sha512 raw = Ok sk ->
  (exists out proof, edProve G sha512 sk m = Ok (out, proof)) \/ noCandidate (edCandidate G sha512 (pt_enc G (e_point G sk)) m).
Proof.
  intros Hbig K. unfold edProve. destruct (ed_encodeToCurve_result (pt_enc G (e_point G sk)) m) as [(h & i & A & _)|[A C]]; [|auto]. rewrite A. cbn [bind]. cbv zeta.
  left. unfold edNonce, setUniformBytes. rewrite Hsha. cbn [Nat.eqb must bind].
  match goal with |- context [edChallenge G sha512 ?a ?b ?c ?d ?e] => destruct (edChallenge_parts a b c d e) as (l & El & Ll) end.
  rewrite El, (canonical_short l Ll). pose proof (unle_lt l) as Hl. unfold lenN in Hl. rewrite Ll in Hl. change (256 ^ N.of_nat 16) with (2 ^ 128) in Hl.
  replace (unle l <? q) with true by (symmetry; apply N.ltb_lt; lia). cbn [must bind]. eauto.
Qed.

Lemma ed_enc_inj a b : pt_enc G a = pt_enc G b -> a = b.
Proof. intro X. pose proof (ee_dec _ E a) as A. rewrite X, (ee_dec _ E b) in A. congruence. Qed.
Lemma ed_newPrivate_nonzero raw sk : 2 ^ 252 < q -> edNewPrivateKey G sha512 raw = Ok sk -> e_scalar G sk <> 0.
Proof.
  intro Hq. unfold edNewPrivateKey. destruct (Nat.eqb (List.length raw) 32); cbn [negb]; [|discriminate]. cbv zeta. unfold setBytesWithClamping. rewrite firstn_length, Hsha. cbn [Nat.min Nat.eqb bind].
  intro X. apply Ok_inj in X as <-. cbn [e_scalar]. intro C. pose proof (q_pos G 8 L) as Hp. set (n := unle (firstn 32 (sha512 raw))) in *. unfold clamp in C.
  apply N.mod_divide in C; [|lia]. assert (Hk : (n mod 2 ^ 254) / 8 < 2 ^ 251).
  { apply N.div_lt_upper_bound; [lia|]. change (8 * 2 ^ 251) with (2 ^ 254). apply N.mod_lt. discriminate. }
  set (k := (n mod 2 ^ 254) / 8) in *. replace (8 * k + 2 ^ 254) with (8 * (k + 2 ^ 251)) in C by (change (2 ^ 254) with (8 * 2 ^ 251); lia).
  assert (Hm : (k + 2 ^ 251) mod q <> 0).
  { rewrite N.mod_small; [|change (2 ^ 252) with (2 * 2 ^ 251) in Hq; lia]. change (2 ^ 251) with 3618502788666131106986593281521497120414687020801267626233049500247285301248. lia. }
  apply (l_base _ _ L). apply (mul_eq_O G 8 L PO 8 (pt_base G)); [apply (l_baseOrder _ _ L)| |apply (cof_mod G 8 L PO)].
  apply (mul_eq_O G 8 L PO (k + 2 ^ 251)); [| |exact Hm].
  - rewrite (mul_comm G 8 L), (l_baseOrder _ _ L). apply (mul_O G 8 L).
  - rewrite <- (l_mulmul _ _ L), (N.mul_comm _ 8). destruct C as [j ->]. rewrite (l_mulmul _ _ L), (l_baseOrder _ _ L). apply (mul_O G 8 L).
Qed.

Lemma ed_public raw sk : edNewPrivateKey G sha512 raw = Ok sk -> e_scalar G sk <> 0 ->
  edNewPublicKey G (edBytes G (edPublicKey G sk)) = Ok (edPublicKey G sk).
Proof.
  intros K Hx. destruct (ed_newPrivate_ok raw sk K) as (Ep & Hlt & _). unfold edNewPublicKey, edBytes, edPublicKey. rewrite (ee_dec _ E). cbn [of_opt bind].
  destruct (bytes_eqb _ _) eqn:Eb; [|reflexivity]. exfalso. apply bytes_eqb_eq, ed_enc_inj in Eb. unfold mult8 in Eb. apply (l_base _ _ L).
  apply (mul_eq_O G 8 L PO (e_scalar G sk)); [apply (l_baseOrder _ _ L)| |rewrite N.mod_small; assumption].
  rewrite <- Ep. apply (mul_eq_O G 8 L PO 8); [|exact Eb|apply (cof_mod G 8 L PO)]. rewrite Ep, (mul_comm G 8 L), (l_baseOrder _ _ L). apply (mul_O G 8 L).
Qed.
End Ed.
