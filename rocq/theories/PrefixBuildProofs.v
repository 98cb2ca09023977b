(** Lemmas: what the proof builder produces. *)
From Verif Require Import Base BaseProofs LogTreeSpec PrefixModel PrefixSpec PrefixProofs PrefixUpdateProofs.
From Coq Require Import Sorting.Permutation Sorting.Sorted.

Lemma filter_parts {A} (g : A -> bool) (l : list A) x : In x l <-> In x (filter (fun a => negb (g a)) l) \/ In x (filter g l).
Proof. rewrite !filter_In. destruct (g x) eqn:E; cbn; intuition congruence. Qed.

Lemma telems_ext H hs t : forall ks ks' d, (forall k, In k ks <-> In k ks') -> telems H hs t ks d = telems H hs t ks' d.
Proof.
  assert (NE : forall (ks ks' : list bytes) k r, (forall k, In k ks <-> In k ks') -> ks = k :: r -> exists k' r', ks' = k' :: r').
  { intros ks ks' k r E ->. destruct ks' as [|k' r']; [|eauto]. exfalso. apply (E k). left. reflexivity. }
  induction t as [|k c|l IHl r IHr]; intros ks ks' d E;
    (destruct ks as [|k1 r1]; [destruct ks' as [|k2 r2]; [reflexivity|exfalso; apply (E k2); left; reflexivity]|]);
    (destruct (NE _ _ _ _ E eq_refl) as [k2 [r2 ->]]); cbn [telems]; try reflexivity.
  rewrite (IHl (filter (fun k => negb (bitAt k d)) (k1 :: r1)) (filter (fun k => negb (bitAt k d)) (k2 :: r2))).
  - rewrite (IHr (filter (fun k => bitAt k d) (k1 :: r1)) (filter (fun k => bitAt k d) (k2 :: r2))); [reflexivity|].
    intro k. rewrite !filter_In. rewrite E. reflexivity.
  - intro k. rewrite !filter_In. rewrite E. reflexivity.
Qed.

Lemma tsearch_lookup hs t : forall p k, Canon hs p t -> List.length k = hs -> prefixOf p (bits k) ->
  snd (tsearch t k (skipn (List.length p) (bits k)) (List.length p)) = assoc (contents t) k.
Proof.
  induction t as [|k' c|l IHl r IHr]; intros p k C Lk P; cbn [tsearch contents assoc].
  - reflexivity.
  - destruct (bytes_eqb k k'); reflexivity.
  - pose proof (Canon_TN_depth _ _ _ _ C) as L. pose proof C as [Cl [Cr _]].
    rewrite skipn_bit by (rewrite Lk; exact L).
    pose proof (prefix_bit_step p k P) as Pb. rewrite Lk in Pb. specialize (Pb L).
    assert (AA : forall (a b : list (bytes * bytes)), assoc (a ++ b) k = match assoc a k with Some c => Some c | None => assoc b k end).
    { intros a b. induction a as [|[x y] a IH]; [reflexivity|]. cbn. destruct (bytes_eqb k x); auto. }
    assert (NI : forall b t', Canon hs (p ++ [b]) t' -> bitAt k (List.length p) <> b -> assoc (contents t') k = None).
    { intros b t' C' Nb. assert (A : forall x, In x (contents t') -> fst x <> k).
      { intros x I E. destruct (Canon_In _ _ _ C' x I) as [_ [_ Px]]. apply prefix_bit_inv in Px. congruence. }
      revert A. clear. induction (contents t') as [|[x y] a IH]; intros A; [reflexivity|]. cbn.
      destruct (bytes_eqb k x) eqn:E; [apply bytes_eqb_eq in E; exfalso; apply (A (x, y)); [left; reflexivity|auto]|].
      apply IH. intros z I. apply A. right. exact I. }
    rewrite AA. specialize (IHl (p ++ [false]) k Cl Lk). specialize (IHr (p ++ [true]) k Cr Lk).
    rewrite app_length, Nat.add_1_r in IHl, IHr.
    destruct (bitAt k (List.length p)) eqn:B.
    + rewrite (IHr Pb). rewrite (NI false l Cl); [reflexivity|congruence].
    + rewrite (IHl Pb). rewrite (NI true r Cr) by congruence. destruct (assoc (contents l) k); reflexivity.
Qed.

Lemma assoc_In l k c : NoDup (map fst l) -> assoc l k = Some c <-> In (k, c) l.
Proof.
  induction l as [|[x y] l IH]; intros N; cbn; [split; [discriminate|tauto]|].
  inversion N as [|? ? N1 N2]; subst. destruct (bytes_eqb k x) eqn:E.
  - apply bytes_eqb_eq in E. subst x. split; [intros F; injection F as ->; left; reflexivity|].
    intros [F|F]; [congruence|]. exfalso. apply N1. apply in_map_iff. exists (k, c). auto.
  - apply bytes_eqb_neq in E. rewrite (IH N2). split; [auto|]. intros [F|F]; [congruence|exact F].
Qed.

Lemma assoc_None l k : assoc l k = None <-> ~ In k (map fst l).
Proof.
  induction l as [|[x y] l IH]; cbn; [tauto|]. destruct (bytes_eqb k x) eqn:E.
  - apply bytes_eqb_eq in E. subst. split; [discriminate|tauto].
  - apply bytes_eqb_neq in E. rewrite IH. intuition congruence.
Qed.

Lemma tsearch_lookup0 hs t k : Canon hs [] t -> List.length k = hs -> snd (tsearch t k (bits k) 0) = assoc (contents t) k.
Proof. intros C L. apply (tsearch_lookup hs t [] k C L (prefixOf_nil _)). Qed.

Section Build.
Variable H : bytes -> option bytes.
Variable hs : nat.
Variable X : list bool -> bytes -> tileId -> trie -> Prop.
Hypothesis HX : forall p h i t, X p h i t -> thash H hs t = Some h.
Hypothesis Htot : total H.

Definition wr (t : trie) (d : nat) (o : nat * bytes) : write :=
  let r := tsearch t (snd o) (skipn d (bits (snd o))) d in (fst o, fst r, snd r).

Lemma build_ok t : forall p n vs, Canon hs p t -> Rep H hs X p n t ->
  StronglySorted (kle snd) vs ->
  Forall (fun o : nat * bytes => List.length (snd o) = hs /\ prefixOf p (bits (snd o)) /\ resolved n (skipn (List.length p) (bits (snd o)))) vs ->
  exists es, build H hs n vs (List.length p) = Ok (map (wr t (List.length p)) vs, es) /\
    telems H hs t (map snd vs) (List.length p) = Some es.
Proof.
  induction t as [|k c|tl IHl tr IHr]; intros p n vs C R So F.
  - destruct vs as [|o vs].
    + destruct (total_thash H hs TE Htot) as [h Eh]. exists [h].
      destruct n; cbn [build map telems]; rewrite (Rep_hash H hs X HX _ _ _ R), Eh; auto.
    + inversion F as [|? ? [_ [_ Rs]] _]; subst. inversion R; subst; [|destruct Rs].
      exists []. split; [|reflexivity]. reflexivity.
  - destruct vs as [|o vs].
    + destruct (total_thash H hs (TL k c) Htot) as [h Eh]. exists [h].
      destruct n; cbn [build map telems]; rewrite (Rep_hash H hs X HX _ _ _ R), Eh; auto.
    + inversion F as [|? ? [_ [_ Rs]] _]; subst. inversion R; subst; [|destruct Rs].
      exists []. split; [|reflexivity]. cbn [build]. match goal with |- Ok (?a, ?b) = Ok (?c, ?d) => let Q := fresh in assert (Q : a = c); [|rewrite Q; reflexivity] end. apply map_ext. intro a. unfold wr. cbn [tsearch].
      destruct (bytes_eqb (snd a) k); reflexivity.
  - destruct vs as [|o vs].
    + destruct (total_thash H hs (TN tl tr) Htot) as [h Eh]. exists [h].
      destruct n; cbn [build map telems]; rewrite (Rep_hash H hs X HX _ _ _ R), Eh; auto.
    + pose proof (Canon_TN_depth _ _ _ _ C) as L. pose proof C as [Cl [Cr _]].
      inversion R as [| |? l r h id ? ? Rl Rr Hh Hi|]; subst.
      2:{ inversion F as [|? ? [_ [_ Rs]] _]; subst. destruct Rs. }
      set (d := List.length p) in *.
      assert (SP : splitAt snd (o :: vs) d = Ok (filter (fun a => negb (bitOf snd d a)) (o :: vs), filter (bitOf snd d) (o :: vs))).
      { apply (splitAt_ok snd d p); auto. rewrite Forall_forall in *. intros a I. destruct (F a I) as [E [P _]]. split; [exact P|lia]. }
      assert (PT : filter (fun a => negb (bitOf snd d a)) (o :: vs) ++ filter (bitOf snd d) (o :: vs) = o :: vs).
      { unfold splitAt in SP. destruct (binSearch _ _ _ _ _ _) as [k| | |]; try discriminate SP. cbn [bind] in SP.
        assert (E1 : forall a b c e : list (nat * bytes), Ok (a, b) = Ok (c, e) -> c ++ e = a ++ b) by congruence.
        rewrite (E1 _ _ _ _ SP). apply firstn_skipn. }
      cbn [build telems]. change (map snd (o :: vs)) with (snd o :: map snd vs). cbn [telems].
      rewrite SP. cbn [bind].
      change (snd o :: map snd vs) with (map snd (o :: vs)).
      remember (o :: vs) as L0 eqn:EL0. clear EL0.
      rewrite Forall_forall in F.
      assert (Ls : forall b, List.length (p ++ [b]) = S d) by (intro; rewrite app_length; unfold d; cbn; lia).
      destruct (IHl (p ++ [false]) l (filter (fun a => negb (bitOf snd d a)) L0) Cl Rl) as [el [El Tl]].
      { apply sorted_filter. exact So. }
      { rewrite Forall_forall. intros a I. apply filter_In in I. destruct I as [I B]. destruct (F a I) as [E [P Rs]].
        rewrite skipn_bit in Rs by lia. cbn [resolved] in Rs. unfold bitOf in B.
        pose proof (prefix_bit_step p (snd a) P) as Pb. fold d in Pb.
        destruct (bitAt (snd a) d); [discriminate B|]. rewrite Ls. split; [exact E|]. split; [apply Pb; lia|exact Rs]. }
      destruct (IHr (p ++ [true]) r (filter (bitOf snd d) L0) Cr Rr) as [er [Er Tr]].
      { apply sorted_filter. exact So. }
      { rewrite Forall_forall. intros a I. apply filter_In in I. destruct I as [I B]. destruct (F a I) as [E [P Rs]].
        rewrite skipn_bit in Rs by lia. cbn [resolved] in Rs. unfold bitOf in B.
        pose proof (prefix_bit_step p (snd a) P) as Pb. fold d in Pb.
        destruct (bitAt (snd a) d); [|discriminate B]. rewrite Ls. split; [exact E|]. split; [apply Pb; lia|exact Rs]. }
      rewrite Ls in El, Er, Tl, Tr. rewrite El. cbn [bind]. rewrite Er. cbn [bind].
      exists (el ++ er). split.
      * match goal with |- Ok (?a, ?b) = Ok (?c, ?d) => let Q := fresh in assert (Q : a = c); [|rewrite Q; reflexivity] end. rewrite <- PT at 3. rewrite map_app. f_equal.
        -- apply map_ext_in. intros a I. apply filter_In in I. destruct I as [I B]. destruct (F a I) as [E _].
           unfold wr. rewrite (skipn_bit (snd a) d) by lia. cbn [tsearch]. unfold bitOf in B.
           destruct (bitAt (snd a) d); [discriminate B|]. reflexivity.
        -- apply map_ext_in. intros a I. apply filter_In in I. destruct I as [I B]. destruct (F a I) as [E _].
           unfold wr. rewrite (skipn_bit (snd a) d) by lia. cbn [tsearch]. unfold bitOf in B.
           destruct (bitAt (snd a) d); [|discriminate B]. reflexivity.
      * rewrite !filter_map. change (fun x : nat * bytes => negb (bitAt (snd x) d)) with (fun a => negb (bitOf (@snd nat bytes) d a)).
        change (fun x : nat * bytes => bitAt (snd x) d) with (bitOf (@snd nat bytes) d).
        rewrite Tl, Tr. reflexivity.
Qed.

Lemma written_In t d vs o : NoDup (map fst vs) -> In o vs ->
  written (map (wr t d) vs) (fst o) = Some (tsearch t (snd o) (skipn d (bits (snd o))) d).
Proof.
  induction vs as [|a vs IH]; intros N I; [destruct I|]. cbn [map] in *. inversion N as [|? ? N1 N2]; subst.
  destruct (wr t d a) as [[j r] c] eqn:W. unfold wr in W. injection W as E1 E2 E3. subst j.
  cbn [written]. destruct I as [->|I].
  - rewrite Nat.eqb_refl. subst r c. destruct (tsearch _ _ _ _); reflexivity.
  - destruct (Nat.eqb_spec (fst o) (fst a)) as [E|E]; [|apply IH; auto].
    exfalso. apply N1. rewrite <- E. apply in_map. exact I.
Qed.

Lemma number_fst {A} (l : list A) i : map fst (number i l) = seq i (List.length l).
Proof. revert i. induction l as [|a l IH]; intro i; cbn; [reflexivity|]. rewrite IH. reflexivity. Qed.
Lemma number_snd {A} (l : list A) i : map snd (number i l) = l.
Proof. revert i. induction l as [|a l IH]; intro i; cbn; [reflexivity|]. rewrite IH. reflexivity. Qed.

Lemma mapM_ok {A B} (f : A -> res B) (g : A -> B) l : (forall a, In a l -> f a = Ok (g a)) -> mapM f l = Ok (map g l).
Proof.
  induction l as [|a l IH]; intros F; [reflexivity|]. cbn. rewrite (F a (or_introl eq_refl)). cbn.
  rewrite IH by (intros; apply F; right; assumption). reflexivity.
Qed.

Lemma mapM_seq_number {A B} (f : nat -> res B) (g : A -> B) (l : list A) : forall i,
  (forall a, In a (number i l) -> f (fst a) = Ok (g (snd a))) -> mapM f (seq i (List.length l)) = Ok (map g l).
Proof.
  induction l as [|a l IH]; intros i F; [reflexivity|]. cbn. pose proof (F (i, a) (or_introl eq_refl)) as F1. cbn [fst snd] in F1. rewrite F1. cbn.
  rewrite (IH (S i)) by (intros b I; apply F; right; exact I). reflexivity.
Qed.

Lemma runProofBuilder_ok n t keys : Canon hs [] t -> Rep H hs X [] n t ->
  Forall (fun k : bytes => List.length k = hs) keys -> (forall k, In k keys -> resolved n (bits k)) ->
  exists es, telems H hs t keys 0 = Some es /\
    runProofBuilder H hs n keys =
      Ok ({| p_results := map (fun k => fst (tsearch t k (bits k) 0)) keys; p_elements := es |},
          map (assoc (contents t)) keys).
Proof.
  intros C R F Rs. unfold runProofBuilder.
  pose proof (ksort_perm (@snd nat bytes) (number 0 keys)) as PM.
  set (vs := ksort snd (number 0 keys)) in *.
  assert (Ik : forall o, In o vs -> In (snd o) keys).
  { intros o I. apply (Permutation_in _ PM) in I. rewrite <- (number_snd keys 0). apply in_map. exact I. }
  rewrite Forall_forall in F.
  destruct (build_ok t [] n vs C R) as [es [E T]].
  { apply ksort_sorted. }
  { rewrite Forall_forall. intros o I. split; [apply F; auto|]. split; [apply prefixOf_nil|]. apply Rs. auto. }
  cbn [List.length] in E, T. rewrite E. cbn [bind]. exists es. split.
  - rewrite <- T. apply telems_ext. intro k. rewrite <- (number_snd keys 0) at 1.
    split; intro I; (eapply Permutation_in; [|exact I]); apply Permutation_map; [apply Permutation_sym|]; exact PM.
  - rewrite (mapM_seq_number _ (fun k => tsearch t k (bits k) 0) keys 0).
    + cbn [bind]. rewrite !map_map. do 2 f_equal. apply map_ext_in. intros k I. apply (tsearch_lookup0 hs); auto.
    + intros o I. apply (Permutation_in _ (Permutation_sym PM)) in I. rewrite (written_In t 0 vs o).
      * reflexivity.
      * eapply Permutation_NoDup; [apply Permutation_map; apply Permutation_sym; exact PM|]. rewrite number_fst. apply seq_NoDup.
      * exact I.
Qed.

End Build.
