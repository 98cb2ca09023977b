(** Lemmas: mutations and searches of the stored prefix tree. *)
From Verif Require Import Base BaseProofs LogTreeSpec PrefixModel PrefixSpec PrefixProofs PrefixUpdateProofs
  PrefixCodecProofs PrefixStoreProofs PrefixTileProofs PrefixBuildProofs PrefixMutateProofs.
From Coq Require Import Sorting.Permutation Sorting.Sorted.

Lemma existsb_false {A} (g : A -> bool) l : existsb g l = false <-> forall x, In x l -> g x = false.
Proof.
  split.
  - intros E x I. destruct (g x) eqn:G; [|reflexivity]. rewrite <- E. symmetry. apply existsb_exists. eauto.
  - intros F. destruct (existsb g l) eqn:E; [|reflexivity]. apply existsb_exists in E. destruct E as [x [I G]]. rewrite (F x I) in G. discriminate G.
Qed.

Lemma existsb_key k l : existsb (bytes_eqb k) l = true <-> In k l.
Proof.
  rewrite existsb_exists. split; [intros [x [I E]]; apply bytes_eqb_eq in E; subst; exact I|]. intros I. exists k. split; [exact I|apply bytes_eqb_refl].
Qed.

Lemma existsb_key_false k l : existsb (bytes_eqb k) l = false <-> ~ In k l.
Proof. rewrite <- existsb_key. destruct (existsb (bytes_eqb k) l); intuition congruence. Qed.

Lemma badLen_ok hs v : badLen hs v = false <-> List.length v = hs.
Proof. unfold badLen. rewrite negb_false_iff. apply Nat.eqb_eq. Qed.

Lemma combine_map {A B} (g : A -> B) l : combine l (map g l) = map (fun k => (k, g k)) l.
Proof. induction l as [|a l IH]; [reflexivity|]. cbn. rewrite IH. reflexivity. Qed.

Lemma mapM_opt {A} msg (l : list (option A)) :
  (forall x, In x l -> x <> None) -> exists out, mapM (fun c => of_opt msg c) l = Ok out /\ map Some out = l.
Proof.
  induction l as [|[a|] l IH]; intros F.
  - exists []. auto.
  - destruct IH as [out [E M]]; [intros; apply F; right; assumption|]. exists (a :: out). cbn. rewrite E. cbn. rewrite M. auto.
  - exfalso. apply (F None); [left|]; reflexivity.
Qed.

Lemma mapM_opt_fail {A} msg (l : list (option A)) : In None l -> mapM (fun c => of_opt msg c) l = Fail msg.
Proof.
  induction l as [|[a|] l IH]; intros I; [destruct I| |reflexivity]. destruct I as [I|I]; [discriminate I|]. cbn. rewrite (IH I). reflexivity.
Qed.

Lemma firstn_exact {A} k (a b : list A) : k = List.length a -> firstn k (a ++ b) = a.
Proof. intros ->. rewrite firstn_app, Nat.sub_diag, firstn_all. cbn. apply app_nil_r. Qed.
Lemma skipn_exact {A} k (a b : list A) : k = List.length a -> skipn k (a ++ b) = b.
Proof. intros ->. rewrite skipn_app, Nat.sub_diag, skipn_all. reflexivity. Qed.

Section Main.
Variable H : bytes -> option bytes.
Variable hs : nat.
Hypothesis Hsized : forall x h, H x = Some h -> List.length h = hs.
Hypothesis Htot : total H.
Hypothesis Hsmall : (hs <= 32)%nat.

(** Version [ver] of the stored tree is [t]. *)
Definition At (s : store) (ver : N) (t : trie) : Prop :=
  Canon hs [] t /\ (ver = 0 /\ t = TE \/ 0 < ver /\ Holds H hs s ver t).

Definition honest (t : trie) (keys : list bytes) (es : list bytes) : pproof :=
  {| p_results := map (fun k => fst (tsearch t k (bits k) 0)) keys; p_elements := es |}.

Lemma getMutationRoot_ok s ver t add rem : At s ver t ->
  Forall (fun k : bytes => List.length k = hs) (map fst add ++ rem) -> map fst add ++ rem <> [] ->
  ((forall k, In k (map fst add) -> assoc (contents t) k <> None -> In k rem) /\ (forall k, In k rem -> assoc (contents t) k <> None) ->
   exists root es coms, getMutationRoot H hs s ver add rem = Ok (root, honest t (map fst add ++ rem) es, coms) /\
     telems H hs t (map fst add ++ rem) 0 = Some es /\ map Some coms = map (assoc (contents t)) rem /\
     Sees H hs s t [] root /\ allIds root /\ forall k, In k (map fst add ++ rem) -> resolved root (bits k)) /\
  (~ ((forall k, In k (map fst add) -> assoc (contents t) k <> None -> In k rem) /\ (forall k, In k rem -> assoc (contents t) k <> None)) ->
   exists m, getMutationRoot H hs s ver add rem = Fail m).
Proof.
  intros [C [[-> ->]|[Hv Ho]]] F NE; unfold getMutationRoot.
  - rewrite N.eqb_refl. cbn [contents assoc]. destruct rem as [|k rem].
    + split; [intros _|intros X; exfalso; apply X; split; [congruence|intros ? []]].
      destruct (runProofBuilder_ok H hs (X H hs s) (X_hash H hs s) Htot Empty TE (map fst add ++ [])) as [es [T R]];
        [exact I|constructor|exact F|intros; exact I|].
      rewrite R. cbn [bind]. exists Empty, es, []. repeat split; auto.
    + split; [intros [_ X]; exfalso; apply (X k (or_introl eq_refl)); reflexivity|]. eauto.
  - replace (ver =? 0) with false by (symmetry; apply N.eqb_neq; lia).
    destruct (loadTree_ok H hs Hsized s ver t _ C Ho NE F) as [root [L [Sr [Ai Rs]]]]. rewrite L. cbn [bind].
    pose proof Sr as Rr. apply (Sees_Rep H hs Htot) in Rr.
    destruct (runProofBuilder_ok H hs (X H hs s) (X_hash H hs s) Htot root t (map fst add ++ rem) C Rr F Rs) as [es [T R]].
    rewrite R. cbn [bind].
    rewrite !map_app.
    rewrite firstn_exact, skipn_exact by (rewrite !map_length; reflexivity).
    rewrite combine_map. set (chk := existsb _ _).
    assert (Chk : chk = false <-> (forall k, In k (map fst add) -> assoc (contents t) k <> None -> In k rem)).
    { unfold chk. rewrite existsb_false. split.
      - intros A k I N. specialize (A (k, assoc (contents t) k)). cbn [fst snd] in A.
        specialize (A (in_map (fun k => (k, assoc (contents t) k)) _ _ I)).
        destruct (assoc (contents t) k); [|congruence]. apply existsb_key. apply negb_false_iff. exact A.
      - intros A x I. apply in_map_iff in I. destruct I as [k [<- I]]. cbn [fst snd].
        specialize (A k I). destruct (assoc (contents t) k); [|reflexivity].
        apply negb_false_iff. apply existsb_key. apply A. congruence. }
    split.
    + intros [A B]. rewrite (proj2 Chk A).
      destruct (mapM_opt "can not remove vrf output that does not exist" (map (assoc (contents t)) rem)) as [out [E M]].
      { intros x I. apply in_map_iff in I. destruct I as [k [<- I]]. auto. }
      rewrite E. cbn [bind]. exists root, es, out. repeat split; auto. unfold honest. rewrite map_app. reflexivity.
    + intros N. destruct chk; [eauto|]. eexists.
      rewrite mapM_opt_fail; [reflexivity|]. apply in_map_iff.
      destruct (existsb (fun k => match assoc (contents t) k with None => true | _ => false end) rem) eqn:E.
      * apply existsb_exists in E. destruct E as [k [I E]]. exists k. destruct (assoc (contents t) k); [discriminate E|auto].
      * exfalso. apply N. split; [apply Chk; reflexivity|]. intros k I. rewrite existsb_false in E. specialize (E k I).
        destruct (assoc (contents t) k); [discriminate|discriminate E].
Qed.

Definition checksPass (add : list (bytes * bytes)) (rem : list bytes) : Prop :=
  Forall (fun e => List.length (fst e) = hs /\ List.length (snd e) = hs) add /\
  Forall (fun k : bytes => List.length k = hs) rem /\ NoDup (map fst add) /\ NoDup rem.

Lemma mutate_checks s ver add rem :
  (checksPass add rem -> mutate H hs s ver add rem =
     let* (root, proof, coms) := getMutationRoot H hs s ver add rem in
     let* root' := addRemove H hs (depthFuel hs) root (ksort fst add) (ksort (fun x => x) rem) 0 in
     let* rootHash := nodeHash H hs root' in
     let* tiles := splitIntoTiles H hs (w64 (ver + 1)) root' in
     let* s' := foldM (fun s '(id, d, r) => let* raw := tileMarshal H hs d r in Ok ((id, raw) :: s)) tiles s in
     Ok (rootHash, proof, coms, s')) /\
  (~ checksPass add rem -> exists m, mutate H hs s ver add rem = Fail m).
Proof.
  unfold mutate. cbn zeta.
  pose proof (ksort_perm (@fst bytes bytes) add) as P1. pose proof (ksort_perm (fun x : bytes => x) rem) as P2.
  assert (L1 : existsb (fun e : bytes * bytes => badLen hs (fst e)) (ksort fst add) = false <-> Forall (fun e => List.length (fst e) = hs) add).
  { rewrite existsb_false, Forall_forall. split; intros A x I.
    - apply badLen_ok. apply A. apply ksort_In. exact I.
    - apply badLen_ok. apply A. apply ksort_In in I. exact I. }
  assert (L2 : existsb (fun e : bytes * bytes => badLen hs (snd e)) (ksort fst add) = false <-> Forall (fun e => List.length (snd e) = hs) add).
  { rewrite existsb_false, Forall_forall. split; intros A x I.
    - apply badLen_ok. apply A. apply ksort_In. exact I.
    - apply badLen_ok. apply A. apply ksort_In in I. exact I. }
  assert (L3 : existsb (badLen hs) (ksort (fun x => x) rem) = false <-> Forall (fun k : bytes => List.length k = hs) rem).
  { rewrite existsb_false, Forall_forall. split; intros A x I.
    - apply badLen_ok. apply A. apply ksort_In. exact I.
    - apply badLen_ok. apply A. apply ksort_In in I. exact I. }
  assert (D1 : dupAdjacent (map fst (ksort fst add)) = false <-> NoDup (map fst add)).
  { rewrite dupAdjacent_sorted by (apply sorted_map_key, ksort_sorted).
    split; apply Permutation_NoDup; apply Permutation_map; [|apply Permutation_sym]; exact P1. }
  assert (D2 : dupAdjacent (ksort (fun x => x) rem) = false <-> NoDup rem).
  { rewrite dupAdjacent_sorted by apply ksort_sorted.
    split; apply Permutation_NoDup; [|apply Permutation_sym]; exact P2. }
  assert (CP : checksPass add rem <-> Forall (fun e : bytes * bytes => List.length (fst e) = hs) add /\
      Forall (fun e : bytes * bytes => List.length (snd e) = hs) add /\ NoDup (map fst add) /\ Forall (fun k : bytes => List.length k = hs) rem /\ NoDup rem).
  { unfold checksPass. rewrite !Forall_forall. split.
    - intros [A [B [C D]]]. repeat split; auto; intros x I; apply (A x I).
    - intros [A [A' [C [B D]]]]. repeat split; auto. }
  rewrite <- L1, <- L2, <- L3, <- D1, <- D2 in CP. rewrite CP. clear.
  destruct (existsb (fun e : bytes * bytes => badLen hs (fst e)) (ksort fst add)); [split; [intros [A _]; discriminate A|eauto]|].
  destruct (existsb (fun e : bytes * bytes => badLen hs (snd e)) (ksort fst add)); [split; [intros [_ [A _]]; discriminate A|eauto]|].
  destruct (dupAdjacent (map fst (ksort fst add))); [split; [intros [_ [_ [A _]]]; discriminate A|eauto]|].
  destruct (existsb (badLen hs) (ksort (fun x => x) rem)); [split; [intros [_ [_ [_ [A _]]]]; discriminate A|eauto]|].
  destruct (dupAdjacent (ksort (fun x => x) rem)); [split; [intros [_ [_ [_ [_ A]]]]; discriminate A|eauto]|].
  split; [reflexivity|]. intros A. exfalso. apply A. auto.
Qed.

Lemma NoDup_assoc_In t p k c : Canon hs p t -> assoc (contents t) k = Some c <-> In (k, c) (contents t).
Proof. intros C. apply assoc_In. apply (Canon_NoDup hs p). exact C. Qed.

(** The map of the new trie. *)
Lemma newContents_assoc t t' add rem : Canon hs [] t -> Canon hs [] t' -> NoDup (map fst add) ->
  (forall x, In x (contents t') <-> newContents add rem (contents t) x) ->
  (forall k, In k (map fst add) -> assoc (contents t) k <> None -> In k rem) ->
  forall k, assoc (contents t') k = update (assoc (contents t)) add rem k.
Proof.
  intros C C' ND E New k. unfold update. destruct (assoc add k) as [c|] eqn:A.
  - apply (NoDup_assoc_In t' []); auto. apply E. left. apply assoc_In; auto.
  - apply assoc_None in A. destruct (existsb (bytes_eqb k) rem) eqn:R.
    + apply existsb_key in R. apply assoc_None. intros I. apply in_map_iff in I. destruct I as [x [<- I]].
      apply E in I. destruct I as [I|[I N]]; [|auto]. apply A. apply in_map. exact I.
    + apply existsb_key_false in R. destruct (assoc (contents t) k) as [c|] eqn:B.
      * apply (NoDup_assoc_In t' []); auto. apply E. right. split; [|exact R]. apply (NoDup_assoc_In t []); auto.
      * apply assoc_None in B. apply assoc_None. intros I. apply in_map_iff in I. destruct I as [x [<- I]].
        apply E in I. destruct I as [I|[I N]]; [apply A|apply B]; apply in_map; exact I.
Qed.

Lemma mutate_ok s ver t add rem : At s ver t -> fresh s ver -> ver + 1 < two64 ->
  add <> [] \/ rem <> [] -> lenN add + lenN rem < two32 ->
  admissible hs (assoc (contents t)) add rem ->
  exists h es coms s' t', mutate H hs s ver add rem = Ok (h, honest t (map fst add ++ rem) es, coms, s') /\
    telems H hs t (map fst add ++ rem) 0 = Some es /\ map Some coms = map (assoc (contents t)) rem /\
    At s' (ver + 1) t' /\ fresh s' (ver + 1) /\ thash H hs t' = Some h /\
    (forall x, In x (contents t') <-> newContents add rem (contents t) x) /\
    (forall k, assoc (contents t') k = update (assoc (contents t)) add rem k) /\
    (forall id raw, sget s id = Some raw -> sget s' id = Some raw).
Proof.
  intros A Fr Hv NE Sz [A1 [A2 [A3 [A4 [A5 A6]]]]].
  pose proof A as [C _].
  assert (KL : Forall (fun k : bytes => List.length k = hs) (map fst add ++ rem)).
  { rewrite Forall_forall in *. intros k I. apply in_app_or in I. destruct I as [I|I]; [|auto].
    apply in_map_iff in I. destruct I as [e [<- I]]. apply A1. exact I. }
  assert (KN : map fst add ++ rem <> []).
  { intros E. apply app_eq_nil in E. destruct E as [E ->]. apply map_eq_nil in E. subst. destruct NE; congruence. }
  assert (KL1 : (1 <= List.length (ksort fst add) + List.length (ksort (fun x => x) rem))%nat).
  { rewrite (Permutation_length (ksort_perm fst add)), (Permutation_length (ksort_perm (fun x => x) rem)).
    destruct add, rem; cbn; try lia. destruct NE; congruence. }
  rewrite (proj1 (mutate_checks s ver add rem)) by (repeat split; auto).
  destruct (proj1 (getMutationRoot_ok s ver t add rem A KL KN)) as [root [es [coms [E [T [M [Sr [Ai Rs]]]]]]]]; [split; auto|].
  rewrite E. cbn [bind].
  assert (Kin : forall k, In k (map fst (ksort fst add) ++ ksort (fun x => x) rem) <-> In k (map fst add ++ rem)).
  { intro k. rewrite !in_app_iff, !in_map_iff. setoid_rewrite ksort_In. reflexivity. }
  destruct (addRemove_ok H hs (X H hs s) (X_hash H hs s) (depthFuel hs) [] t root (ksort fst add) (ksort (fun x => x) rem)) as [[root' [E' [t' [Rt' [C' Ct']]]]]|[msg [_ N]]].
  - unfold depthFuel. cbn. lia.
  - cbn. lia.
  - exact C.
  - apply (Sees_Rep H hs Htot). exact Sr.
  - split; [apply ksort_sorted|]. split.
    + eapply Permutation_NoDup; [apply Permutation_map; apply Permutation_sym; apply ksort_perm|exact A3].
    + rewrite Forall_forall in *. intros e I. apply ksort_In in I. destruct (A1 e I) as [B1 B2].
      split; [exact B1|]. split; [exact B2|apply prefixOf_nil].
  - split; [apply ksort_sorted|]. rewrite Forall_forall in *. intros e I. apply ksort_In in I. split; [auto|apply prefixOf_nil].
  - intros k I. apply Rs. apply Kin. exact I.
  - apply allIds_hasIds. exact Ai.
  - intros x e I J Eq. apply ksort_In in J. apply ksort_In. apply A5; [rewrite Eq; apply in_map; exact J|].
    destruct x as [k c]. cbn. rewrite (proj2 (NoDup_assoc_In t [] k c C) I). discriminate.
  - left. apply X_TN.
  - cbn [List.length] in E'. rewrite E'. cbn [bind].
    destruct (total_thash H hs t' Htot) as [h Eh].
    pose proof Rt' as St'. apply (Sees_Rep H hs Htot) in St'.
    rewrite (Sees_hash H hs Htot s t' [] root' h St' Eh). cbn [bind].
    assert (w64 (ver + 1) = ver + 1) as -> by (unfold w64; apply N.mod_small; exact Hv).
    destruct (storeNew H hs Hsized Htot Hsmall s ver t' root' Fr Hv C' St') as [tiles [s' [E1 [E2 [Ho [Fr' Mo]]]]]].
    { apply (addRemove_notExt H hs _ _ _ _ _ _ KL1 E'). }
    { apply addRemove_count in E'. change entry with (bytes * bytes)%type in E'.
      rewrite (Permutation_length (ksort_perm fst add)), (Permutation_length (ksort_perm (fun x => x) rem)) in E'.
      unfold lenN, depthFuel, two32, two64 in *.
      assert ((2 * (8 * hs + 1) * (List.length add + List.length rem) <= 514 * (List.length add + List.length rem))%nat) by nia. lia. }
    rewrite E1. cbn [bind]. rewrite E2. cbn [bind].
    assert (Ct : forall x, In x (contents t') <-> newContents add rem (contents t) x).
    { intro x. rewrite Ct'. unfold newContents. rewrite !ksort_In. reflexivity. }
    exists h, es, coms, s', t'. split; [reflexivity|]. split; [exact T|]. split; [exact M|].
    split; [split; [exact C'|right; split; [lia|exact Ho]]|]. split; [exact Fr'|]. split; [exact Eh|]. split; [exact Ct|].
    split; [|exact Mo]. apply newContents_assoc; auto.
  - exfalso. apply N. exact Htot.
Qed.

Lemma mutate_fail s ver t add rem : At s ver t -> add <> [] \/ rem <> [] ->
  ~ admissible hs (assoc (contents t)) add rem -> exists m, mutate H hs s ver add rem = Fail m.
Proof.
  intros A NE NA.
  (* the checks are decidable *)
  assert (D : checksPass add rem \/ ~ checksPass add rem).
  { assert (F : forall T (P : T -> Prop) l, (forall x, P x \/ ~ P x) -> Forall P l \/ ~ Forall P l).
    { intros T P l Dp. induction l as [|a l IH]; [left; constructor|].
      destruct (Dp a); [|right; intro B; inversion B; auto]. destruct IH; [left; constructor; auto|right; intro B; inversion B; auto]. }
    assert (ND : forall l : list bytes, NoDup l \/ ~ NoDup l).
    { induction l as [|a l IH]; [left; constructor|]. destruct (in_dec bytes_eq_dec a l); [right; intro B; inversion B; auto|].
      destruct IH; [left; constructor; auto|right; intro B; inversion B; auto]. }
    unfold checksPass.
    destruct (F _ (fun e : bytes * bytes => List.length (fst e) = hs /\ List.length (snd e) = hs) add); [intros; lia| |tauto].
    destruct (F _ (fun k : bytes => List.length k = hs) rem); [intros; lia| |tauto].
    destruct (ND (map fst add)); [|tauto]. destruct (ND rem); tauto. }
  destruct D as [D|D]; [|apply (proj2 (mutate_checks s ver add rem)); exact D].
  rewrite (proj1 (mutate_checks s ver add rem) D). destruct D as [A1 [A2 [A3 A4]]].
  assert (KL : Forall (fun k : bytes => List.length k = hs) (map fst add ++ rem)).
  { rewrite Forall_forall in *. intros k I. apply in_app_or in I. destruct I as [I|I]; [|auto].
    apply in_map_iff in I. destruct I as [e [<- I]]. apply A1. exact I. }
  assert (KN : map fst add ++ rem <> []).
  { intros E. apply app_eq_nil in E. destruct E as [E ->]. apply map_eq_nil in E. subst. destruct NE; congruence. }
  destruct (proj2 (getMutationRoot_ok s ver t add rem A KL KN)) as [m E].
  { intros [B1 B2]. apply NA. unfold admissible. repeat (split; [assumption|]). assumption. }
  rewrite E. cbn. eauto.
Qed.

Lemma search_ok s ver t keys : At s ver t -> 0 < ver -> keys <> [] -> Forall (fun k : bytes => List.length k = hs) keys ->
  exists es, search H hs s ver keys = Ok (honest t keys es, map (assoc (contents t)) keys) /\ telems H hs t keys 0 = Some es.
Proof.
  intros [C [[-> _]|[_ Ho]]] V NE F; [lia|]. unfold search.
  replace (ver =? 0) with false by (symmetry; apply N.eqb_neq; lia).
  replace (existsb (badLen hs) keys) with false.
  2:{ symmetry. apply existsb_false. rewrite Forall_forall in F. intros x I. apply badLen_ok. auto. }
  destruct (loadTree_ok H hs Hsized s ver t _ C Ho NE F) as [root [L [Sr [Ai Rs]]]]. rewrite L. cbn [bind].
  apply (Sees_Rep H hs Htot) in Sr.
  destruct (runProofBuilder_ok H hs (X H hs s) (X_hash H hs s) Htot root t keys C Sr F Rs) as [es [T R]].
  exists es. auto.
Qed.

Lemma search_badlen s ver keys : 0 < ver -> ~ Forall (fun k : bytes => List.length k = hs) keys ->
  search H hs s ver keys = Fail "unexpected vrf output length".
Proof.
  intros V F. unfold search. replace (ver =? 0) with false by (symmetry; apply N.eqb_neq; lia).
  destruct (existsb (badLen hs) keys) eqn:E; [reflexivity|]. exfalso. apply F. rewrite existsb_false in E.
  rewrite Forall_forall. intros x I. apply badLen_ok. auto.
Qed.

End Main.

(** ** Later writes do not change what is read *)

Lemma fetch_mono hs s s' : (forall id raw, sget s id = Some raw -> sget s' id = Some raw) ->
  forall i x, fetch hs s i = Ok x -> fetch hs s' i = Ok x.
Proof.
  intros M i x E. unfold fetch in *. apply bind_ok in E. destruct E as [raw [G E]].
  destruct (sget s i) as [raw'|] eqn:Gs; [|discriminate G]. rewrite (M _ _ Gs), G. exact E.
Qed.

Lemma loadPath_mono hs s s' : (forall i x, fetch hs s i = Ok x -> fetch hs s' i = Ok x) ->
  forall f key n d r, loadPath hs f s key n d = Ok r -> loadPath hs f s' key n d = Ok r.
Proof.
  intros M. induction f as [|f IH]; intros key n d r E; [discriminate E|]. cbn [loadPath] in *.
  destruct n as [|v c|l rt h id|h i]; try exact E.
  - apply bind_ok in E. destruct E as [b [Eb E]]. rewrite Eb. cbn [bind].
    destruct b; apply bind_ok in E; destruct E as [x [Ex E]]; rewrite (IH _ _ _ _ Ex); exact E.
  - apply bind_ok in E. destruct E as [[td root] [Ef E]]. rewrite (M _ _ Ef). cbn [bind].
    apply bind_ok in E. destruct E as [m [Em E]]. rewrite Em. cbn [bind]. destruct m; auto.
Qed.

Lemma search_mono H hs s s' ver keys r : (forall id raw, sget s id = Some raw -> sget s' id = Some raw) ->
  search H hs s ver keys = Ok r -> search H hs s' ver keys = Ok r.
Proof.
  intros M E. unfold search in *. destruct (ver =? 0); [discriminate E|]. destruct (existsb (badLen hs) keys); [discriminate E|].
  apply bind_ok in E. destruct E as [root [L E]].
  assert (L' : loadTree hs s' ver keys = Ok root); [|rewrite L'; exact E]. clear E.
  unfold loadTree in *. revert L. generalize (External [] (ver, 0)) as n. induction keys as [|k keys IH]; intros n L; [exact L|].
  cbn [foldM] in *. apply bind_ok in L. destruct L as [n1 [L1 L]].
  rewrite (loadPath_mono hs s s' (fetch_mono hs s s' M) _ _ _ _ _ L1). cbn [bind].
  apply IH. exact L.
Qed.
