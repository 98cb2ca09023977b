(** The verifiable random functions: completeness, soundness, totality. *)
From Verif Require Import Base BaseProofs VrfModel VrfSpec VrfProofs.
Open Scope N_scope.
Local Open Scope list_scope.

Lemma copyInto_exact n l : List.length l = n -> copyInto n l = l.
Proof. intro E. unfold copyInto. rewrite E, Nat.sub_diag. cbn [repeat]. rewrite app_nil_r, <- E. apply firstn_all. Qed.
Lemma copyInto_len n l : (List.length l <= n)%nat -> List.length (copyInto n l) = n.
Proof. intro E. unfold copyInto. rewrite app_length, firstn_length, repeat_length. lia. Qed.
Lemma unbe_zeros k l : unbe (repeat x00 k ++ l) = unbe l.
Proof. rewrite unbe_app. replace (unbe (repeat x00 k)) with 0; [lia|]. induction k as [|k IH]; [reflexivity|]. cbn [repeat]. rewrite unbe_cons, <- IH. reflexivity. Qed.
Lemma firstn_app_exact {A} (a b : list A) n : List.length a = n -> firstn n (a ++ b) = a.
Proof. intro E. rewrite <- E, firstn_app, Nat.sub_diag, firstn_all. cbn [firstn]. apply app_nil_r. Qed.
Lemma skipn_app_exact {A} (a b : list A) n : List.length a = n -> skipn n (a ++ b) = b.
Proof. intro E. rewrite <- E, skipn_app, Nat.sub_diag, skipn_all. reflexivity. Qed.

Lemma Ok_pair {A B} (a c : A) (b d : B) : Ok (a, b) = Ok (c, d) -> a = c /\ b = d.
Proof. intro E. injection E. auto. Qed.
Lemma Ok_inj {A} (a b : A) : Ok a = Ok b -> a = b.
Proof. intro E. injection E. auto. Qed.

Section P256.
Variable G : group.
Variable sha256 : bytes -> bytes.
Variable mac : bytes -> bytes -> bytes.
Hypothesis L : lawful G 1.
Hypothesis PO : primeOrder G 1.
Hypothesis E : p256Encoding G.
Hypothesis Hsha : forall x, List.length (sha256 x) = 32%nat.
Hypothesis Hmac : forall k x, List.length (mac k x) = 32%nat.
Notation q := (pt_q G).

Lemma qO (a : pt G) : pt_mul G q a = pt_zero G.
Proof. rewrite <- (N.mul_1_l q). apply (l_order _ _ L). Qed.

Lemma encode_result salt m : forall fuel counter, counter + N.of_nat fuel = 256 -> counter <= 255 ->
  (exists h i, p256Encode G sha256 fuel salt m counter = Ok h /\ i < 256 /\ p256Candidate G sha256 salt m i = Some h) \/
  (p256Encode G sha256 fuel salt m counter = Panic "encode to curve failed unexpectedly" /\ forall i, counter <= i < 256 -> p256Candidate G sha256 salt m i = None).
Proof.
  induction fuel as [|fuel IH]; intros counter Hc Hl; [lia|]. cbn [p256Encode]. destruct (p256Candidate G sha256 salt m counter) as [h|] eqn:Ec.
  - left. exists h, counter. split; [reflexivity|]. split; [lia|exact Ec].
  - destruct (N.eqb_spec counter 255) as [->|Hn].
    + right. split; [reflexivity|]. intros i Hi. replace i with 255 by lia. exact Ec.
    + destruct (IH (counter + 1) ltac:(lia) ltac:(lia)) as [(h & i & A)|(A & C)]; [left; exists h, i; exact A|right; split; [exact A|]].
      intros i Hi. destruct (N.eq_dec i counter) as [->|]; [exact Ec|apply C; lia].
Qed.
Lemma encodeToCurve_result salt m :
  (exists h i, p256EncodeToCurve G sha256 salt m = Ok h /\ i < 256 /\ p256Candidate G sha256 salt m i = Some h) \/
  (p256EncodeToCurve G sha256 salt m = Panic "encode to curve failed unexpectedly" /\ noCandidate (p256Candidate G sha256 salt m)).
Proof.
  destruct (encode_result salt m 256 0) as [A|[A C]]; [reflexivity|lia|left; exact A|right; split; [exact A|]]. intros i Hi. apply C. lia.
Qed.
Lemma encode_nonzero salt m h : p256EncodeToCurve G sha256 salt m = Ok h -> h <> pt_zero G.
Proof.
  intro Eh. destruct (encodeToCurve_result salt m) as [(h' & i & A & _ & C)|[A _]]; [|congruence]. rewrite Eh in A. injection A as <-.
  unfold p256Candidate in C. apply (pe_canon _ E) in C; [exact (proj2 C)|]. cbn [List.length]. rewrite Hsha. reflexivity.
Qed.

Lemma inRange_spec l : inRange G l = true <-> 0 < unbe l < q.
Proof. unfold inRange. rewrite andb_true_iff, !N.ltb_lt. reflexivity. Qed.

Lemma nonceLoop_ok : forall r K V k, p256NonceLoop G mac r K V = Ok k -> 0 < unbe k < q /\ List.length k = 32%nat.
Proof.
  induction r as [|r IH]; intros K V k; cbn [p256NonceLoop]; [discriminate|]. cbv zeta. destruct (inRange G (mac K V)) eqn:Er; [|apply IH].
  intros [= <-]. apply inRange_spec in Er. split; [exact Er|apply Hmac].
Qed.
Lemma nonce_ok priv h k : p256Nonce G sha256 mac priv h = Ok k -> 0 < unbe k < q /\ List.length k = 32%nat.
Proof. apply nonceLoop_ok. Qed.

Lemma nonceLoop_total : forall r K V, (exists k, p256NonceLoop G mac r K V = Ok k) \/ p256NonceLoop G mac r K V = Panic "nonce generation failed unexpectedly".
Proof. induction r as [|r IH]; intros K V; cbn [p256NonceLoop]; [auto|]. cbv zeta. destruct (inRange G (mac K V)); eauto. Qed.
Lemma nonce_total priv h : (exists k, p256Nonce G sha256 mac priv h = Ok k) \/ p256Nonce G sha256 mac priv h = Panic "nonce generation failed unexpectedly".
Proof. apply nonceLoop_total. Qed.

Lemma newPrivate_ok raw sk : p256NewPrivateKey G raw = Ok sk ->
  p_scalar G sk = raw /\ List.length raw = 32%nat /\ 0 < unbe raw < q /\ p_point G sk = pt_mul G (unbe raw) (pt_base G).
Proof.
  unfold p256NewPrivateKey. destruct (Nat.eqb_spec (List.length raw) 32) as [El|]; cbn [negb]; [|discriminate].
  destruct (inRange G raw) eqn:Er; cbn [negb]; [|discriminate]. unfold scalarBaseMult, scalarMult. rewrite El. cbn [Nat.eqb bind]. intros [= <-]. cbn.
  apply inRange_spec in Er. auto.
Qed.
Lemma mul_nonzero x a : 0 < x < q -> a <> pt_zero G -> pt_mul G x a <> pt_zero G.
Proof. intros Hx Ha C. apply Ha. apply (mul_eq_O G 1 L PO x); [apply qO|exact C|]. rewrite N.mod_small; lia. Qed.

Lemma challenge_len a b c d e : List.length (p256Challenge G sha256 a b c d e) = 16%nat.
Proof. unfold p256Challenge. rewrite firstn_length, Hsha. reflexivity. Qed.

Local Opaque p256EncodeToCurve p256Nonce p256Challenge be N.pow unbe.
Lemma prove_ok raw sk m out proof : p256NewPrivateKey G raw = Ok sk -> p256Prove G sha256 mac sk m = Ok (out, proof) ->
  exists h k c s, p256EncodeToCurve G sha256 (pt_enc G (p_point G sk)) m = Ok h /\ h <> pt_zero G /\
    let x := unbe raw in let gamma := pt_mul G x h in
    gamma <> pt_zero G /\ c = p256Challenge G sha256 (p_point G sk) h gamma (pt_mul G k (pt_base G)) (pt_mul G k h) /\
    s = (unbe c * x + k) mod q /\ out = p256ProofToHash sha256 (pt_enc G gamma) /\ proof = pt_enc G gamma ++ c ++ be 32 s.
Proof.
  intro K. destruct (newPrivate_ok raw sk K) as (Es & El & Hx & Ep). unfold p256Prove. rewrite Es. intro P.
  apply bind_ok in P as (h & Eh & P). pose proof (encode_nonzero _ _ _ Eh) as Hh. cbv zeta in P. unfold scalarBaseMult, scalarMult in P. rewrite El in P. cbn [Nat.eqb must bind] in P.
  apply bind_ok in P as (kb & Ek & P). apply nonce_ok in Ek as [Hk Lk]. rewrite Lk in P. cbn [Nat.eqb must bind] in P.
  pose proof (q_pos G 1 L) as Hq. pose proof (pe_order _ E) as Hq2.
  unfold fillBytes32 in P. 
  match type of P with context [?s0 mod q] => set (s := s0 mod q) in *; assert (Hs : s < q) by (apply N.mod_lt; lia) end.
  replace (s <? 2 ^ 256) with true in P by (symmetry; apply N.ltb_lt; lia). cbn [bind] in P.
  assert (Hg : pt_mul G (unbe raw) h <> pt_zero G) by (apply mul_nonzero; assumption).
  rewrite (copyInto_exact 33) in P by (apply (pe_len _ E); exact Hg). rewrite (copyInto_exact 16) in P by apply challenge_len. apply Ok_pair in P as [<- <-].
  exists h, (unbe kb). eexists. exists s. split; [exact Eh|]. split; [exact Hh|]. cbv zeta. split; [exact Hg|]. split; [reflexivity|]. split; [reflexivity|]. split; reflexivity.
Qed.

Lemma p256_complete raw sk m out proof : p256NewPrivateKey G raw = Ok sk -> p256Prove G sha256 mac sk m = Ok (out, proof) ->
  List.length proof = p256VrfProofSize /\
  p256Verify G sha256 (p256PublicKey G sk) m proof = (if unbe (skipn 49 proof) =? 0 then Fail "vrf proof is malformed" else Ok out).
Proof.
  intros K P. destruct (newPrivate_ok raw sk K) as (Es & El & Hx & Ep). destruct (prove_ok raw sk m out proof K P) as (h & k & c & s & Eh & Hh & Hg & Ec & Es' & Eo & Epr).
  pose proof (q_pos G 1 L) as Hq. pose proof (pe_order _ E) as Hq2. assert (Hs : s < q) by (rewrite Es'; apply N.mod_lt; lia).
  set (gamma := pt_mul G (unbe raw) h) in *.
  assert (Lg : List.length (pt_enc G gamma) = 33%nat) by (apply (pe_len _ E); exact Hg).
  assert (Lc : List.length c = 16%nat) by (rewrite Ec; apply challenge_len).
  assert (Lp : List.length proof = 81%nat) by (rewrite Epr, !app_length, be_length, Lg, Lc; reflexivity).
  split; [exact Lp|]. unfold p256Verify, p256verify, p256PublicKey. rewrite Lp. cbn [Nat.eqb negb].
  assert (F1 : firstn 33 proof = pt_enc G gamma) by (rewrite Epr; apply firstn_app_exact; exact Lg).
  assert (F2 : skipn 33 proof = c ++ be 32 s) by (rewrite Epr; apply skipn_app_exact; exact Lg).
  assert (F3 : skipn 49 proof = be 32 s) by (rewrite Epr, app_assoc; apply skipn_app_exact; rewrite app_length; lia).
  rewrite F1, F2, F3, (pe_dec _ E) by exact Hg. rewrite (firstn_app_exact c _ 16 Lc). cbn [of_opt bind].
  assert (Us : unbe (be 32 s) = s) by (apply unbe_be; change (256 ^ N.of_nat 32) with (2 ^ 256); lia). rewrite Us.
  unfold inRange. rewrite Us. replace (s <? q) with true by (symmetry; apply N.ltb_lt; exact Hs). rewrite andb_true_r.
  destruct (N.eqb_spec s 0) as [->|Hs0]; [reflexivity|]. replace (0 <? s) with true by (symmetry; apply N.ltb_lt; lia). cbn [negb].
  rewrite Eh. cbn [bind]. unfold scalarBaseMult, scalarMult. rewrite be_length. rewrite app_length, repeat_length, Lc. cbn [Nat.eqb Nat.add bind].
  rewrite unbe_zeros, Us. rewrite (skipn_app_exact (repeat x00 16) c 16 (repeat_length _ _)).
  assert (X : s mod q = (unbe c * unbe raw + k) mod q) by (rewrite Es', N.mod_mod by lia; reflexivity).
  rewrite Ep. unfold gamma at 2 3. rewrite !(honest_point G 1 L (unbe raw) k) by (first [apply qO|exact X]). rewrite <- Ep. fold gamma. rewrite <- Ec, bytes_eqb_refl.
  cbn [bind]. rewrite Eo. reflexivity.
Qed.

Notation p256Number := (p256Number G sha256).
Lemma p256Number_spec p1 p2 p3 p4 p5 : p256Number p1 p2 p3 p4 p5 = unbe (p256Challenge G sha256 p1 p2 p3 p4 p5).
Proof. reflexivity. Qed.

Lemma p256_accepted Y m proof out : p256Verify G sha256 Y m proof = Ok out ->
  exists h gamma U V s, p256EncodeToCurve G sha256 (pt_enc G Y) m = Ok h /\ pt_dec G (firstn 33 proof) = Some gamma /\
    out = p256ProofToHash sha256 (pt_enc G gamma) /\ answers G Y h gamma U V (p256Number Y h gamma U V) s.
Proof.
  unfold p256Verify. intro P. apply bind_ok in P as ([] & P & Eo). injection Eo as <-. unfold p256verify in P.
  destruct (Nat.eqb_spec (List.length proof) 81) as [Lp|]; cbn [negb] in P; [|discriminate].
  destruct (pt_dec G (firstn 33 proof)) as [gamma|] eqn:Eg; cbn [of_opt bind] in P; [|discriminate P].
  destruct (inRange G (skipn 49 proof)) eqn:Er; cbn [negb] in P; [|discriminate].
  apply bind_ok in P as (h & Eh & P). unfold scalarBaseMult, scalarMult in P. rewrite skipn_length, Lp in P.
  rewrite app_length, repeat_length, firstn_length, skipn_length, Lp in P. cbn [Nat.eqb Nat.add Nat.min Nat.sub bind] in P. rewrite unbe_zeros in P.
  rewrite (skipn_app_exact (repeat x00 16) _ 16 (repeat_length _ _)) in P.
  set (c := firstn 16 (skipn 33 proof)) in *. set (s := unbe (skipn 49 proof)) in *.
  match type of P with (if bytes_eqb _ (p256Challenge _ _ _ _ _ ?u ?v) then _ else _) = _ => set (U := u) in *; set (V := v) in * end.
  destruct (bytes_eqb c (p256Challenge G sha256 Y h gamma U V)) eqn:Ec; [|discriminate]. apply bytes_eqb_eq in Ec.
  exists h, gamma, U, V, s. split; [exact Eh|]. split; [exact eq_refl|]. split.
  - apply (pe_canon _ E) in Eg; [|rewrite firstn_length, Lp; reflexivity]. destruct Eg as [Eg _]. rewrite Eg. reflexivity.
  - rewrite p256Number_spec, <- Ec. split; apply (sub_add G 1 L).
Qed.

Lemma p256_sound Y m proof out : p256Verify G sha256 Y m proof = Ok out ->
  exists h gamma, p256EncodeToCurve G sha256 (pt_enc G Y) m = Ok h /\ pt_dec G (firstn 33 proof) = Some gamma /\
    out = p256ProofToHash sha256 (pt_enc G gamma) /\ (rightPoint G 1 Y h gamma \/ guessed G p256Number Y h gamma).
Proof.
  intro P. destruct (p256_accepted Y m proof out P) as (h & gamma & U & V & s & A1 & A2 & A3 & A4). exists h, gamma. repeat (split; [assumption|]).
  eapply sound; [exact L|exact PO|exact A4].
Qed.

Lemma p256_unique Y m proof out proof' out' : p256Verify G sha256 Y m proof = Ok out -> p256Verify G sha256 Y m proof' = Ok out' ->
  out = out' \/ exists h gamma, p256EncodeToCurve G sha256 (pt_enc G Y) m = Ok h /\
    (pt_dec G (firstn 33 proof) = Some gamma \/ pt_dec G (firstn 33 proof') = Some gamma) /\ guessed G p256Number Y h gamma.
Proof.
  intros P P'. destruct (p256_sound _ _ _ _ P) as (h & g & A & B & C & [D|D]); [|right; exists h, g; auto].
  destruct (p256_sound _ _ _ _ P') as (h' & g' & A' & B' & C' & [D'|D']); [|right; exists h', g'; auto].
  left. rewrite A in A'. injection A' as <-. pose proof (right_unique G 1 L PO _ _ _ _ D D') as R. rewrite !(l_mul1 _ _ L) in R. subst g'. congruence.
Qed.

Lemma p256_honest_output raw sk m out proof out' proof' : p256NewPrivateKey G raw = Ok sk -> p256Prove G sha256 mac sk m = Ok (out, proof) ->
  p256Verify G sha256 (p256PublicKey G sk) m proof' = Ok out' ->
  out' = out \/ exists h gamma, p256EncodeToCurve G sha256 (pt_enc G (p256PublicKey G sk)) m = Ok h /\ pt_dec G (firstn 33 proof') = Some gamma /\
    guessed G p256Number (p256PublicKey G sk) h gamma.
Proof.
  intros K P V. destruct (newPrivate_ok raw sk K) as (Es & El & Hx & Ep). destruct (prove_ok raw sk m out proof K P) as (h & k & c & s & Eh & Hh & Hg & _ & _ & Eo & _).
  destruct (p256_sound _ _ _ _ V) as (h' & g & A & B & C & [D|D]); [|right; exists h', g; auto]. left. unfold p256PublicKey in A. rewrite Eh in A. injection A as <-.
  assert (R : rightPoint G 1 (p_point G sk) h (pt_mul G (unbe raw) h)).
  { exists (unbe raw). rewrite !(l_mul1 _ _ L), N.mul_1_r. split; [exact Ep|reflexivity]. }
  pose proof (right_unique G 1 L PO _ _ _ _ D R) as Q. rewrite !(l_mul1 _ _ L) in Q. congruence.
Qed.

Lemma p256_verify_total Y m proof : (exists out, p256Verify G sha256 Y m proof = Ok out) \/ (exists e, p256Verify G sha256 Y m proof = Fail e) \/
  noCandidate (p256Candidate G sha256 (pt_enc G Y) m).
Proof.
  unfold p256Verify, p256verify. destruct (Nat.eqb_spec (List.length proof) 81) as [Lp|]; cbn [negb bind]; [|eauto].
  destruct (pt_dec G (firstn 33 proof)) as [gamma|]; cbn [of_opt bind]; [|eauto]. destruct (inRange G (skipn 49 proof)); cbn [negb bind]; [|eauto].
  destruct (encodeToCurve_result (pt_enc G Y) m) as [(h & i & A & _)|[A C]]; [|auto]. rewrite A. cbn [bind].
  unfold scalarBaseMult, scalarMult. rewrite skipn_length, app_length, repeat_length, firstn_length, skipn_length, Lp. cbn [Nat.eqb Nat.add Nat.min Nat.sub bind].
  destruct (bytes_eqb _ _); cbn [bind]; eauto.
Qed.
Lemma p256_prove_total raw sk m : p256NewPrivateKey G raw = Ok sk ->
  (exists out proof, p256Prove G sha256 mac sk m = Ok (out, proof)) \/ noCandidate (p256Candidate G sha256 (pt_enc G (p_point G sk)) m) \/
  exists hStr, p256Nonce G sha256 mac raw hStr = Panic "nonce generation failed unexpectedly".
Proof.
  intro K. destruct (newPrivate_ok raw sk K) as (Es & El & Hx & Ep). unfold p256Prove. rewrite Es.
  destruct (encodeToCurve_result (pt_enc G (p_point G sk)) m) as [(h & i & A & _)|[A C]]; [|auto]. rewrite A. cbn [bind]. cbv zeta.
  unfold scalarBaseMult, scalarMult. rewrite El. cbn [Nat.eqb must bind].
  destruct (p256Nonce G sha256 mac raw (pt_enc G h)) as [k| | |] eqn:Ek.
  2-4: right; right; exists (pt_enc G h); destruct (nonce_total raw (pt_enc G h)) as [(? & X)|X]; congruence.
  pose proof (nonce_ok _ _ _ Ek) as [Hk Lk]. cbn [bind]. rewrite Lk. cbn [Nat.eqb must bind]. unfold fillBytes32.
  pose proof (q_pos G 1 L) as Hq. pose proof (pe_order _ E) as Hq2.
  match goal with |- context [?s0 mod q] => assert (Hs : s0 mod q < q) by (apply N.mod_lt; lia) end.
  match goal with |- context [?a <? 2 ^ 256] => replace (a <? 2 ^ 256) with true by (symmetry; apply N.ltb_lt; lia) end. cbn [bind]. eauto.
Qed.

Lemma p256_public raw sk : p256NewPrivateKey G raw = Ok sk ->
  p256NewPublicKey G (p256Bytes G (p256PublicKey G sk)) = Ok (p256PublicKey G sk) /\ List.length (p256Bytes G (p256PublicKey G sk)) = 33%nat.
Proof.
  intro K. destruct (newPrivate_ok raw sk K) as (Es & El & Hx & Ep). unfold p256NewPublicKey, p256Bytes, p256PublicKey.
  assert (Hp : p_point G sk <> pt_zero G) by (rewrite Ep; apply mul_nonzero; [exact Hx|apply (l_base _ _ L)]).
  rewrite (pe_len _ E), (pe_dec _ E) by exact Hp. split; reflexivity.
Qed.
End P256.
