(** C14: the ladders of the two sides of a search; C61: inclusion proofs for several versions. *)
From Coq Require Import Sorted.
From Verif Require Import Base BaseProofs LogTreeModel LogTreeSpec PrefixModel PrefixSpec PrefixVerifyProofs3 LaddersModel LaddersProofs CodecModel AlgModel AlgSpec AlgProofs HandleModel HandleSpec HandleProofs HandleProofs2.
Open Scope N_scope.

(** ** C14 *)

Lemma in_searchMaps_l tr x w : In w (fst (searchMaps tr x true)) <-> exists y vs, In (y, vs) (tr_inc tr) /\ y < x /\ In w vs.
Proof.
  cbn. rewrite in_flat_map. split.
  - intros ((y & vs) & I & J). cbn in J. destruct (N.ltb_spec y x); [eauto|destruct J].
  - intros (y & vs & I & L & J). exists (y, vs). split; auto. cbn. apply N.ltb_lt in L. now rewrite L.
Qed.

Lemma in_searchMaps_r tr x w : In w (snd (searchMaps tr x true)) <-> exists y vs, In (y, vs) (tr_non tr) /\ x < y /\ In w vs.
Proof.
  cbn. rewrite in_flat_map. split.
  - intros ((y & vs) & I & J). cbn in J. destruct (N.ltb_spec x y); [eauto|destruct J].
  - intros (y & vs & I & L & J). exists (y, vs). split; auto. cbn. apply N.ltb_lt in L. now rewrite L.
Qed.

Section C14.
Variable L : hlog.
Hypothesis HL : okLog L.
Variable t : N.
Hypothesis Ht : t < 2 ^ 31 - 1.
Let g := h_g L.

(** What is remembered is true, and lies in the direction in which the search went away from it. *)
Definition toward (tr : tracker) (xs : list N) : Prop :=
  (forall y vs, In (y, vs) (tr_inc tr) -> y < h_n L /\ Forall (fun w => (Z.of_N w <= g y)%Z) vs /\
     forall x, In x xs -> y < x -> (g y <= Z.of_N t)%Z) /\
  (forall y vs, In (y, vs) (tr_non tr) -> y < h_n L /\ Forall (fun w => (g y < Z.of_N w)%Z) vs /\
     forall x, In x xs -> x < y -> (Z.of_N t < g y)%Z).

Lemma toward_usable tr x xs : toward tr (x :: xs) -> x < h_n L -> usable L tr x t true.
Proof.
  intros (A & B) Hx. destruct HL as (_ & _ & _ & M & _). split; intros w I.
  - apply in_searchMaps_l in I. destruct I as (y & vs & I & Lt & Iw). destruct (A y vs I) as (Hy & F & D).
    rewrite Forall_forall in F. specialize (F w Iw). specialize (D x (or_introl eq_refl) Lt). specialize (M y x ltac:(lia)). unfold g in *. lia.
  - apply in_searchMaps_r in I. destruct I as (y & vs & I & Lt & Iw). destruct (B y vs I) as (Hy & F & D).
    rewrite Forall_forall in F. specialize (F w Iw). specialize (D x (or_introl eq_refl) Lt). specialize (M x y ltac:(lia)). unfold g in *. lia.
Qed.

Lemma toward_step tr x xs ask : toward tr (x :: xs) -> x < h_n L ->
  (forall y, In y xs -> (x < y -> (g x <= Z.of_N t)%Z) /\ (y < x -> (Z.of_N t < g x)%Z)) ->
  toward (addLadder tr x true (g x) ask) xs.
Proof.
  intros (A & B) Hx D. cbn. split; intros y vs I; cbn in I; apply in_app_iff in I; destruct I as [I|[[= <- <-]|[]]].
  - destruct (A y vs I) as (P1 & P2 & P3). repeat split; auto. intros z Hz. apply P3. now right.
  - repeat split; auto.
    + apply Forall_forall. intros w I. apply filter_In in I. lia.
    + intros z Hz. now apply D.
  - destruct (B y vs I) as (P1 & P2 & P3). repeat split; auto. intros z Hz. apply P3. now right.
  - repeat split; auto.
    + apply Forall_forall. intros w I. apply filter_In in I. lia.
    + intros z Hz. now apply D.
Qed.

Lemma c14_from tr xs : toward tr xs -> Forall (fun x => x < h_n L) xs -> directed g t xs -> agree g t tr tr xs.
Proof.
  revert tr. induction xs as [|x xs IH]; intros tr T F D; [exact I|]. cbn [agree]. inversion_clear F as [|? ? Hx F'].
  pose proof HL as (_ & _ & _ & _ & G).
  destruct (ladder_both L tr x t true (G x Hx) Ht) as (full & rest & E1 & E2 & E3 & E4 & E5 & _); [eapply toward_usable; eauto|].
  exists (asked L tr x t true), full, rest. cbn zeta. fold g in E3, E4. split; [exact E3|]. split; [exact E1|]. split; [exact E2|]. split; [exact E5|]. split; [exact E4|].
  rewrite E2, tracker_agree. apply IH; auto.
  - apply toward_step; auto. intros y Iy. destruct (In_nth_error _ _ Iy) as (j & Ej). apply (D 0%nat (S j) x y); auto. lia.
  - intros i j y z Hij Ei Ej. apply (D (S i) (S j) y z); auto. lia.
Qed.

Lemma c14 xs : Forall (fun x => x < h_n L) xs -> directed g t xs -> agree g t tracker0 tracker0 xs.
Proof. apply c14_from. split; intros y vs []. Qed.

End C14.

(** ** C61 *)

Lemma lookup_len vm vers entries : lookupEntries vm vers (map (fun _ => true) vers) = Ok entries -> List.length entries = List.length vers.
Proof.
  revert entries. induction vers as [|v vers IH]; intros entries; cbn.
  - now intros [= <-].
  - destruct (mget vm v) as [[k [c|]]|]; cbn; try discriminate.
    destruct (lookupEntries vm vers (map (fun _ => true) vers)) as [es| | |] eqn:E; cbn; try discriminate.
    intros [= <-]. cbn. now rewrite (IH es eq_refl).
Qed.

Lemma rIncl_several H hs r x vers root : (2 <= List.length vers)%nat -> fst (rIncl H hs r x vers) <> Ok root.
Proof.
  intros Hl E. unfold rIncl in E. destruct (r_proofs r) as [|p rest]; cbn in E; [discriminate|].
  destruct (Nat.eqb_spec (List.length (p_results p)) 1) as [E1|E1]; cbn in E; [|discriminate].
  destruct (forallb rincl (p_results p)); cbn in E; [|discriminate].
  destruct (lookupEntries (r_versions r) vers (map (fun _ => true) vers)) as [es| | |] eqn:El; cbn in E; try discriminate.
  apply lookup_len in El. unfold Evaluate in E.
  destruct (evaluate (N.to_nat hs) es p) as [n0| | |] eqn:Ee; cbn in E; try discriminate.
  apply evaluate_inv in Ee. destruct Ee as (_ & _ & Ll & _). lia.
Qed.

Lemma incl_never H hs d x vers u : (2 <= List.length vers)%nat -> fst (dpIncl (receivedHandle H hs) d x vers) <> Ok u.
Proof.
  intros Hl. unfold dpIncl. destruct vers as [|v vers]; [cbn in Hl; lia|].
  destruct (dpTs _ d x) as [[t|m|m|] d1]; cbn [fst]; try discriminate.
  pose proof (rIncl_several H hs (d_handle d1) x (v :: vers)) as R. cbn [hIncl receivedHandle].
  destruct (rIncl H hs (d_handle d1) x (v :: vers)) as [[b|m|m|] h]; cbn [fst] in R; cbn; try discriminate.
  specialize (R b Hl). congruence.
Qed.

(** The versions an update asks the server to prove in addition to those of the ladder. *)
Lemma bind_never {A B S} (P : provider S) (p : prog A) (f : A -> prog B) s :
  (forall s a, fst (fst (run P p s)) = Ok a -> forall b s', fst (fst (run P (f a) s')) <> Ok b) -> forall b, fst (fst (run P (pbind p f) s)) <> Ok b.
Proof.
  intros Hf b. rewrite run_bind. specialize (Hf s). destruct (run P p s) as [[[a|m|m|] s1] l]; cbn in *; try discriminate.
  specialize (Hf a eq_refl b s1). destruct (run P (f a) s1) as [[r s2] l']. exact Hf.
Qed.

Lemma bind_never' {A B S} (P : provider S) (p : prog A) (f : A -> prog B) s b :
  (forall a s', fst (fst (run P (f a) s')) <> Ok b) -> fst (fst (run P (pbind p f) s)) <> Ok b.
Proof.
  intros Hf. rewrite run_bind. destruct (run P p s) as [[[a|m|m|] s1] l]; cbn in *; try discriminate.
  specialize (Hf a s1). destruct (run P (f a) s1) as [[r s2] l']. exact Hf.
Qed.

Lemma getIncl_never H hs x vers B (k : unit -> prog B) s b : (2 <= List.length vers)%nat ->
  fst (fst (run (dpProvider (receivedHandle H hs)) (pbind (getIncl x vers) k) s)) <> Ok b.
Proof.
  intros Hl. rewrite run_bind. cbn [getIncl run]. cbn [dpProvider pIncl].
  pose proof (incl_never H hs s x vers tt Hl) as R. destruct (dpIncl _ s x vers) as [[[]|m|m|] s']; cbn in *; congruence.
Qed.

Lemma c61_update H hs c m os pos versions d m' ladder : mo_owner m = Some os ->
  (0 <= greatestVersion os + versions < 4294967295)%Z ->
  searchBinaryLadder (toU32 (greatestVersion os + versions)) (toU32 (greatestVersion os + versions)) [] [] = Ok ladder ->
  (2 <= List.length (filter (fun v => negb (mem32 v ladder))
      (nseq (toU32 (greatestVersion os + 1)) (Z.to_nat (Z.of_N (toU32 (greatestVersion os + versions)) - Z.of_N (toU32 (greatestVersion os + 1)) + 1)))))%nat ->
  result (run (dpProvider (receivedHandle H hs)) (update c m pos versions) d) <> Ok m'.
Proof.
  intros Eo Hv El Hl. unfold update. rewrite Eo. unfold result.
  destruct (mo_size m <=? pos); [discriminate|]. destruct (pos <=? lastUpdate os); [discriminate|].
  destruct (versions <? 1)%Z; [discriminate|]. cbn zeta.
  replace ((greatestVersion os + versions <? 0)%Z || (4294967295 <=? greatestVersion os + versions)%Z) with false by lia.
  rewrite El. cbn [lift]. change (pbind (Ret ladder)) with (fun (f : list N -> prog monitor) => f ladder). cbn beta.
  set (additional := filter _ _) in *.
  apply bind_never'. intros _ s1. apply bind_never'. intros r s2.
  apply bind_never. intros s3 ct E b s4. exfalso. revert E. destruct r as [z|].
  - apply bind_never'. intros r s5. destruct (negb _); [discriminate|]. now apply getIncl_never.
  - now apply getIncl_never.
Qed.

Lemma c61_single f hs W x v : faithful f hs W -> (forall b, List.length (f b) = N.to_nat hs) -> (N.to_nat hs <= 32)%nat -> 0 < hs ->
  x < lenN (w_entries W) -> v < 2 ^ 31 -> (Z.of_N v <= h_g (observed W) x)%Z ->
  exists p, search (full f) (N.to_nat hs) (w_prefixDb W) (add64 x 1) [w_key W v] = Ok (p, [Some (w_com W v)]) /\
    forall r rest, r_proofs r = p :: rest -> mget (r_versions r) v = Some (w_key W v, Some (w_com W v)) ->
      fst (rIncl (full f) hs r x [v]) = Ok (le_root (entryAt W x)).
Proof.
  intros HF Hf Hs Hp Hx Hv Hg.
  destruct (proves_search f hs W HF Hf Hs Hp (x, [v])) as (p & E & Pr & Pe).
  { split; [exact Hx|]. split; [discriminate|]. split; [constructor; [intros []|constructor]|]. constructor; auto. }
  cbn [fst snd map] in *. exists p. replace (Z.of_N v <=? h_g (observed W) x)%Z with true in * by lia. split; [exact E|].
  intros r rest Er Ev. unfold rIncl. rewrite Er.
  assert (exists a, p_results p = [a] /\ rincl a = true) as (a & Ea & Ia).
  { destruct (p_results p) as [|a [|b l]]; cbn in Pr; try discriminate. exists a. split; auto. congruence. }
  rewrite Ea. cbn [List.length Nat.eqb negb forallb]. rewrite Ia. cbn [andb negb map lookupEntries]. rewrite Ev. cbn [bind].
  specialize (Pe [w_com W v]). cbn [combine] in Pe.
  match type of Pe with _ -> ?lhs = _ => match goal with |- context[Evaluate ?a ?b ?c p] => change (Evaluate a b c p) with lhs end end.
  rewrite Pe; [reflexivity|].
  constructor; [|constructor]. unfold okCom. now replace (Z.of_N v <=? h_g (observed W) x)%Z with true by lia.
Qed.
