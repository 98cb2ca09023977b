(** Lemmas: histories of the prefix tree. *)
From Verif Require Import Base BaseProofs LogTreeSpec PrefixModel PrefixSpec PrefixProofs PrefixUpdateProofs
  PrefixCodecProofs PrefixStoreProofs PrefixTileProofs PrefixBuildProofs PrefixMutateProofs PrefixMutateProofs2 PrefixVerifyProofs
  PrefixVerifyProofs2 PrefixVerifyProofs3.
From Coq Require Import Sorting.Permutation Sorting.Sorted.

Lemma Forall_dec' {A} (P : A -> Prop) l : (forall x, P x \/ ~ P x) -> Forall P l \/ ~ Forall P l.
Proof.
  intros D. induction l as [|a l IH]; [left; constructor|].
  destruct (D a); [|right; intro B; inversion B; auto]. destruct IH; [left; constructor; auto|right; intro B; inversion B; auto].
Qed.

Lemma NoDup_dec' (l : list bytes) : NoDup l \/ ~ NoDup l.
Proof.
  induction l as [|a l IH]; [left; constructor|]. destruct (in_dec bytes_eq_dec a l); [right; intro B; inversion B; auto|].
  destruct IH; [left; constructor; auto|right; intro B; inversion B; auto].
Qed.

Lemma admissible_dec hs m add rem : admissible hs m add rem \/ ~ admissible hs m add rem.
Proof.
  assert (DL : forall (x : bytes) , List.length x = hs \/ List.length x <> hs) by (intros; lia).
  assert (DO : forall (o : option bytes), o <> None \/ ~ o <> None) by (intros [o|]; [left; discriminate|right; intros H; apply H; reflexivity]).
  unfold admissible.
  destruct (Forall_dec' (fun e : bytes * bytes => List.length (fst e) = hs /\ List.length (snd e) = hs) add) as [A|A].
  { intros x. destruct (DL (fst x)), (DL (snd x)); tauto. }
  2:{ right. intros [Q _]. exact (A Q). }
  destruct (Forall_dec' (fun k : bytes => List.length k = hs) rem) as [B|B]; [apply DL| |right; intros [_ [Q _]]; exact (B Q)].
  destruct (NoDup_dec' (map fst add)) as [C|C]; [|right; intros [_ [_ [Q _]]]; exact (C Q)].
  destruct (NoDup_dec' rem) as [D|D]; [|right; intros [_ [_ [_ [Q _]]]]; exact (D Q)].
  destruct (Forall_dec' (fun k => m k <> None -> In k rem) (map fst add)) as [E|E].
  { intros k. destruct (in_dec bytes_eq_dec k rem); [tauto|]. destruct (m k); [right; intros Q; apply n; apply Q; discriminate|left; congruence]. }
  2:{ right. intros [_ [_ [_ [_ [Q _]]]]]. apply E. rewrite Forall_forall. exact Q. }
  destruct (Forall_dec' (fun k => m k <> None) rem) as [F|F]; [intros; apply DO| |].
  2:{ right. intros [_ [_ [_ [_ [_ Q]]]]]. apply F. rewrite Forall_forall. exact Q. }
  left. rewrite Forall_forall in E, F. repeat (split; [assumption|]). exact F.
Qed.

Lemma admissible_ext hs m m' add rem : (forall k, m k = m' k) -> admissible hs m add rem -> admissible hs m' add rem.
Proof.
  intros E [A [B [C [D [F G]]]]]. repeat (split; [assumption|]). split.
  - intros k I N. apply F; [exact I|]. rewrite E. exact N.
  - intros k I. rewrite <- E. auto.
Qed.

Lemma update_ext m m' add rem k : (forall k, m k = m' k) -> update m add rem k = update m' add rem k.
Proof. intros E. unfold update. destruct (assoc add k); [reflexivity|]. destruct (existsb _ rem); [reflexivity|apply E]. Qed.

Section Hist.
Variable f : bytes -> bytes.
Variable hs : nat.
Hypothesis Hsz : forall x, List.length (f x) = hs.
Hypothesis Hsmall : (hs <= 32)%nat.

Lemma full_sz x h : full f x = Some h -> List.length h = hs.
Proof. intros E. injection E as <-. apply Hsz. Qed.
Lemma full_tot : total (full f).
Proof. intros x. exists (f x). reflexivity. Qed.

Notation AtF := (At (full f) hs).

Lemma At_mono s s' v t : (forall id raw, sget s id = Some raw -> sget s' id = Some raw) -> AtF s v t -> AtF s' v t.
Proof.
  intros M [C [A|[V [root [F [S [N I]]]]]]]; (split; [exact C|]); [left; exact A|right]. split; [exact V|].
  pose proof (fetch_mono hs s s' M) as FM. exists root. split; [apply FM; exact F|]. split; [|auto].
  eapply Sees_mono; eauto.
Qed.

Lemma hist_inv s vs : hist f hs s vs ->
  vs <> [] /\ fresh s (lenN vs - 1) /\
  forall i m h, nth_error vs i = Some (m, h) -> exists t, AtF s (N.of_nat i) t /\ trieOf hs m t /\ thash (full f) hs t = Some h.
Proof.
  induction 1 as [|s past m h add rem root proof coms s' Hh [_ [Fr IH]] L NE Sz M].
  - split; [discriminate|]. split; [intros id G; exfalso; apply G; reflexivity|].
    intros i m h E. destruct i as [|[|i]]; cbn in E; try discriminate E. injection E as <- <-.
    exists TE. split; [split; [exact I|left; auto]|]. split; [split; [exact I|reflexivity]|reflexivity].
  - split; [intros E; apply app_eq_nil in E; destruct E as [_ E]; discriminate E|].
    assert (Lp : lenN (past ++ [(m, h)]) - 1 = lenN past) by (unfold lenN; rewrite app_length; cbn; lia). rewrite Lp in Fr.
    destruct (IH (List.length past) m h) as [t [A [[C Tm] Th]]].
    { rewrite nth_error_app2, Nat.sub_diag by lia. reflexivity. }
    change (N.of_nat (List.length past)) with (lenN past) in A.
    destruct (admissible_dec hs (assoc (contents t)) add rem) as [Ad|Ad].
    2:{ destruct (mutate_fail (full f) hs full_sz full_tot Hsmall s (lenN past) t add rem A NE Ad) as [msg E]. congruence. }
    destruct (mutate_ok (full f) hs full_sz full_tot Hsmall s (lenN past) t add rem A Fr L NE Sz Ad)
      as [h' [es [coms' [s2 [t' [E [Te [Mc [At' [Fr' [Th' [Nc [Up Mono]]]]]]]]]]]]].
    rewrite M in E. injection E as -> -> -> ->.
    assert (Lq : lenN ((past ++ [(m, h)]) ++ [(update m add rem, h')]) - 1 = lenN past + 1) by (unfold lenN; rewrite !app_length; cbn; lia).
    split; [rewrite Lq; exact Fr'|]. intros i m1 h1 Ei.
    destruct (Nat.lt_ge_cases i (List.length (past ++ [(m, h)]))) as [Li|Li].
    + rewrite nth_error_app1 in Ei by exact Li. destruct (IH i m1 h1 Ei) as [t1 [A1 [T1 H1]]]. exists t1. split; [eapply At_mono; eauto|auto].
    + rewrite nth_error_app2 in Ei by exact Li. destruct (i - List.length (past ++ [(m, h)]))%nat as [|z] eqn:Z; [|destruct z; discriminate Ei].
      injection Ei as <- <-. exists t'. assert (N.of_nat i = lenN past + 1) as ->.
      { rewrite app_length in Z, Li. cbn in Z, Li. unfold lenN. lia. }
      split; [exact At'|]. split; [|exact Th']. split; [apply At'|]. intro k. rewrite Up. apply update_ext. exact Tm.
Qed.

Lemma hist_last s past m h : hist f hs s (past ++ [(m, h)]) ->
  fresh s (lenN past) /\ exists t, AtF s (lenN past) t /\ trieOf hs m t /\ thash (full f) hs t = Some h.
Proof.
  intros Hh. destruct (hist_inv _ _ Hh) as [_ [Fr IH]].
  assert (Lp : lenN (past ++ [(m, h)]) - 1 = lenN past) by (unfold lenN; rewrite app_length; cbn; lia). rewrite Lp in Fr. split; [exact Fr|].
  apply (IH (List.length past) m h). rewrite nth_error_app2, Nat.sub_diag by lia. reflexivity.
Qed.

Lemma hist_mutate s past m h add rem : hist f hs s (past ++ [(m, h)]) ->
  lenN past + 1 < two64 -> add <> [] \/ rem <> [] -> lenN add + lenN rem < two32 ->
  (admissible hs m add rem -> exists root proof coms s', mutate (full f) hs s (lenN past) add rem = Ok (root, proof, coms, s') /\ map Some coms = map m rem) /\
  (~ admissible hs m add rem -> exists msg, mutate (full f) hs s (lenN past) add rem = Fail msg).
Proof.
  intros Hh L NE Sz. destruct (hist_last _ _ _ _ Hh) as [Fr [t [A [[C Tm] Th]]]]. split; intros Ad.
  - destruct (mutate_ok (full f) hs full_sz full_tot Hsmall s (lenN past) t add rem A Fr L NE Sz)
      as [h' [es [coms' [s2 [t' [E [Te [Mc _]]]]]]]].
    { eapply admissible_ext; [|exact Ad]. intro k. symmetry. apply Tm. }
    exists h', (honest t (map fst add ++ rem) es), coms', s2. split; [exact E|]. rewrite Mc. apply map_ext. exact Tm.
  - apply (mutate_fail (full f) hs full_sz full_tot Hsmall s (lenN past) t add rem A NE). intros B. apply Ad. eapply admissible_ext; [|exact B]. exact Tm.
Qed.

Lemma hist_search s vs v m h keys : hist f hs s vs -> nth_error vs (N.to_nat v) = Some (m, h) -> 0 < v -> keys <> [] ->
  Forall (fun k : bytes => List.length k = hs) keys ->
  exists proof, search (full f) hs s v keys = Ok (proof, map m keys) /\ map rincl (p_results proof) = map (fun k => match m k with Some _ => true | None => false end) keys /\
    forall entries, map fst entries = keys -> NoDup keys ->
      Forall (fun e : bytes * bytes => match m (fst e) with Some c => snd e = c | None => snd e = [] \/ List.length (snd e) = hs end) entries ->
      Evaluate (full f) hs entries proof = Ok h.
Proof.
  intros Hh Ev V NE F. destruct (hist_inv _ _ Hh) as [_ [_ IH]]. destruct (IH _ _ _ Ev) as [t [A [[C Tm] Th]]]. rewrite N2Nat.id in A.
  destruct (search_ok (full f) hs full_sz full_tot Hsmall s v t keys A V NE F) as [es [E T]].
  exists (honest t keys es). split; [rewrite E; do 2 f_equal; apply map_ext; exact Tm|]. split.
  - unfold honest. cbn. rewrite map_map. apply map_ext_in. intros k I. rewrite Forall_forall in F.
    rewrite <- Tm, <- (tsearch_lookup0 hs t k C (F k I)).
    assert (G : forall t bs d, rincl (fst (tsearch t k bs d)) = match snd (tsearch t k bs d) with Some _ => true | None => false end).
    { induction t0 as [|k' c'|l IHl r IHr]; intros bs d; cbn; [reflexivity|destruct (bytes_eqb k k'); reflexivity|]. destruct bs as [|[] bs]; auto. }
    apply G.
  - intros entries Ek ND FE. subst keys. apply Evaluate_honest; auto. rewrite Forall_forall in *. intros e I.
    assert (Le : List.length (fst e) = hs) by (apply F; apply in_map; exact I). split; [exact Le|].
    specialize (FE e I). rewrite <- Tm in FE. unfold comOK. destruct (assoc (contents t) (fst e)) as [c|] eqn:Q.
    + split; [right|intros x X; congruence]. rewrite FE. apply (NoDup_assoc_In hs t [] _ _ C) in Q. destruct (Canon_In _ _ _ C _ Q) as [_ [B _]]. exact B.
    + split; [exact FE|intros x X; discriminate X].
Qed.

Lemma hist_stable s past m h add rem root proof coms s' : hist f hs s (past ++ [(m, h)]) ->
  lenN past + 1 < two64 -> add <> [] \/ rem <> [] -> lenN add + lenN rem < two32 ->
  mutate (full f) hs s (lenN past) add rem = Ok (root, proof, coms, s') ->
  (forall id raw, sget s id = Some raw -> sget s' id = Some raw) /\
  forall v keys r, search (full f) hs s v keys = Ok r -> search (full f) hs s' v keys = Ok r.
Proof.
  intros Hh L NE Sz M. destruct (hist_last _ _ _ _ Hh) as [Fr [t [A [[C Tm] Th]]]].
  destruct (admissible_dec hs (assoc (contents t)) add rem) as [Ad|Ad].
  2:{ destruct (mutate_fail (full f) hs full_sz full_tot Hsmall s (lenN past) t add rem A NE Ad) as [msg E]. congruence. }
  destruct (mutate_ok (full f) hs full_sz full_tot Hsmall s (lenN past) t add rem A Fr L NE Sz Ad)
    as [h' [es [coms' [s2 [t' [E [Te [Mc [At' [Fr' [Th' [Nc [Up Mono]]]]]]]]]]]]].
  rewrite M in E. injection E as -> -> -> ->. split; [exact Mono|]. intros v keys r. apply search_mono. exact Mono.
Qed.

Lemma NoDup_contents_assoc t k c : Canon hs [] t -> In (k, c) (contents t) <-> assoc (contents t) k = Some c.
Proof. intros C. symmetry. apply (NoDup_assoc_In hs t [] k c C). Qed.

Lemma hist_root_contents s1 vs1 s2 vs2 v1 v2 m1 m2 h1 h2 : hist f hs s1 vs1 -> hist f hs s2 vs2 ->
  nth_error vs1 v1 = Some (m1, h1) -> nth_error vs2 v2 = Some (m2, h2) -> (forall k, m1 k = m2 k) -> h1 = h2.
Proof.
  intros A B E1 E2 Em. destruct (hist_inv _ _ A) as [_ [_ I1]]. destruct (hist_inv _ _ B) as [_ [_ I2]].
  destruct (I1 _ _ _ E1) as [t1 [_ [[C1 T1] H1]]]. destruct (I2 _ _ _ E2) as [t2 [_ [[C2 T2] H2]]].
  assert (t1 = t2) as <-; [|congruence]. apply (Canon_unique hs t1 [] t2 C1 C2). intros [k c].
  rewrite (NoDup_contents_assoc t1 k c C1), (NoDup_contents_assoc t2 k c C2), T1, T2, Em. reflexivity.
Qed.

Lemma broken_mono T T' : (forall x, In x T -> In x T') -> broken f hs T -> broken f hs T'.
Proof. intros M [[x [y [A [B C]]]]|[x [A B]]]; [left; exists x, y; auto|right; exists x; auto]. Qed.

Lemma thash_inj t1 : forall t2 p1 p2 h, Canon hs p1 t1 -> Canon hs p2 t2 ->
  thash (full f) hs t1 = Some h -> thash (full f) hs t2 = Some h -> t1 = t2 \/ broken f hs (treeInputs f hs t1 ++ treeInputs f hs t2).
Proof.
  assert (Z : forall x T, In x T -> f x = repeat x00 hs -> broken f hs T) by (intros x T I E; right; eauto).
  assert (L : forall t h, thash (full f) hs t = Some h -> List.length h = hs).
  { intros t h E. destruct t as [|k c|l r]; cbn in E; [injection E as <-; apply repeat_length|injection E as <-; apply Hsz|].
    destruct (thash (full f) hs l); [|discriminate E]. destruct (thash (full f) hs r); [|discriminate E]. injection E as <-. apply Hsz. }
  induction t1 as [|k c|l IHl r IHr]; intros t2 p1 p2 h C1 C2 E1 E2.
  - injection E1 as <-. destruct t2 as [|k' c'|l' r']; cbn [thash treeInputs] in *; [auto| |].
    + right. injection E2 as E2. apply (Z (x02 :: k' ++ c')); [left; reflexivity|exact E2].
    + destruct (thash (full f) hs l') as [a|]; [|discriminate E2]. destruct (thash (full f) hs r') as [b|]; [|discriminate E2].
      right. injection E2 as E2. apply (Z (x03 :: a ++ b)); [left; reflexivity|exact E2].
  - cbn [thash treeInputs] in *. injection E1 as E1. destruct t2 as [|k' c'|l' r']; cbn [thash treeInputs] in *.
    + injection E2 as <-. right. apply (Z (x02 :: k ++ c)); [left; reflexivity|exact E1].
    + injection E2 as E2. destruct (bytes_eq_dec (x02 :: k ++ c) (x02 :: k' ++ c')) as [Q|Q].
      * left. injection Q as Q. destruct C1 as [C1 _]. destruct C2 as [C2 _]. apply app_eq_length_inv in Q; [|congruence]. destruct Q as [-> ->]. reflexivity.
      * right. left. exists (x02 :: k ++ c), (x02 :: k' ++ c'). cbn. repeat split; auto; congruence.
    + destruct (thash (full f) hs l') as [a|]; [|discriminate E2]. destruct (thash (full f) hs r') as [b|]; [|discriminate E2].
      injection E2 as E2. right. left. exists (x02 :: k ++ c), (x03 :: a ++ b). cbn. split; [auto|]. split; [auto|]. split; [discriminate|congruence].
  - cbn [thash treeInputs] in *. destruct (thash (full f) hs l) as [a|] eqn:Ta; [|discriminate E1]. destruct (thash (full f) hs r) as [b|] eqn:Tb; [|discriminate E1].
    injection E1 as E1. destruct t2 as [|k' c'|l' r']; cbn [thash treeInputs] in *.
    + injection E2 as <-. right. apply (Z (x03 :: a ++ b)); [left; reflexivity|exact E1].
    + injection E2 as E2. right. left. exists (x03 :: a ++ b), (x02 :: k' ++ c'). split; [left; reflexivity|]. split; [apply in_or_app; right; left; reflexivity|]. split; [discriminate|congruence].
    + destruct (thash (full f) hs l') as [a'|] eqn:Ta'; [|discriminate E2]. destruct (thash (full f) hs r') as [b'|] eqn:Tb'; [|discriminate E2].
      injection E2 as E2. destruct (bytes_eq_dec (x03 :: a ++ b) (x03 :: a' ++ b')) as [Q|Q].
      * injection Q as Q. apply app_eq_length_inv in Q; [|rewrite (L l a Ta), (L l' a' Ta'); reflexivity]. destruct Q as [-> ->].
        destruct C1 as [Cl [Cr _]]. destruct C2 as [Cl' [Cr' _]].
        destruct (IHl l' _ _ a' Cl Cl' eq_refl Ta') as [->|B].
        -- destruct (IHr r' _ _ b' Cr Cr' eq_refl Tb') as [->|B]; [left; reflexivity|right].
           apply (broken_mono _ _) with (2 := B). intros x I. apply in_app_or in I. destruct I as [I|I]; cbn; rewrite !in_app_iff; cbn; rewrite ?in_app_iff; tauto.
        -- right. apply (broken_mono _ _) with (2 := B). intros x I. apply in_app_or in I. destruct I as [I|I]; cbn; rewrite !in_app_iff; cbn; rewrite ?in_app_iff; tauto.
      * right. left. exists (x03 :: a ++ b), (x03 :: a' ++ b'). split; [left; reflexivity|]. split; [apply in_or_app; right; left; reflexivity|]. split; [exact Q|congruence].
Qed.

Lemma hist_root_binds s1 vs1 s2 vs2 v1 v2 m1 m2 h t1 t2 : hist f hs s1 vs1 -> hist f hs s2 vs2 ->
  nth_error vs1 v1 = Some (m1, h) -> nth_error vs2 v2 = Some (m2, h) -> trieOf hs m1 t1 -> trieOf hs m2 t2 ->
  (forall k, m1 k = m2 k) \/ broken f hs (treeInputs f hs t1 ++ treeInputs f hs t2).
Proof.
  intros A B E1 E2 [C1 T1] [C2 T2]. destruct (hist_inv _ _ A) as [_ [_ I1]]. destruct (hist_inv _ _ B) as [_ [_ I2]].
  destruct (I1 _ _ _ E1) as [t1' [_ [[C1' T1'] H1]]]. destruct (I2 _ _ _ E2) as [t2' [_ [[C2' T2'] H2]]].
  assert (t1' = t1) as ->.
  { apply (Canon_unique hs t1' [] t1 C1' C1). intros [k c]. rewrite (NoDup_contents_assoc _ k c C1), (NoDup_contents_assoc _ k c C1'), T1, T1'. reflexivity. }
  assert (t2' = t2) as ->.
  { apply (Canon_unique hs t2' [] t2 C2' C2). intros [k c]. rewrite (NoDup_contents_assoc _ k c C2), (NoDup_contents_assoc _ k c C2'), T2, T2'. reflexivity. }
  destruct (thash_inj t1 t2 [] [] h C1 C2 H1 H2) as [->|Br]; [left|right; exact Br]. intro k. rewrite <- T1, <- T2. reflexivity.
Qed.

Lemma hist_trie s vs v m h : hist f hs s vs -> nth_error vs v = Some (m, h) -> exists t, trieOf hs m t /\ thash (full f) hs t = Some h.
Proof. intros A E. destruct (hist_inv _ _ A) as [_ [_ I]]. destruct (I _ _ _ E) as [t [_ B]]. eauto. Qed.

Lemma hist_audit s past m h add rem root proof coms s' : hist f hs s (past ++ [(m, h)]) ->
  lenN past + 1 < two64 -> add <> [] \/ rem <> [] -> lenN add + lenN rem < two32 ->
  mutate (full f) hs s (lenN past) add rem = Ok (root, proof, coms, s') ->
  NoDup (map fst add ++ rem) ->
  (rem = [] \/ forall t, trieOf hs m t -> copathAll (fun u => (2 <= List.length (contents u))%nat) t (map fst add ++ rem) 0) ->
  EvaluateBeforeAfter (full f) hs add (combine rem coms) proof = Ok (h, root).
Proof.
  intros Hh L NE Sz M ND CA. destruct (hist_last _ _ _ _ Hh) as [Fr [t [A [[C Tm] Th]]]].
  destruct (admissible_dec hs (assoc (contents t)) add rem) as [Ad|Ad].
  2:{ destruct (mutate_fail (full f) hs full_sz full_tot Hsmall s (lenN past) t add rem A NE Ad) as [msg E]. congruence. }
  destruct (mutate_ok (full f) hs full_sz full_tot Hsmall s (lenN past) t add rem A Fr L NE Sz Ad)
    as [h' [es [coms' [s2 [t' [E [Te [Mc [At' [Fr' [Th' [Nc [Up Mono]]]]]]]]]]]]].
  rewrite M in E. injection E as -> -> -> ->. destruct Ad as [A1 [A2 [A3 [A4 [A5 A6]]]]].
  assert (Lc : List.length coms' = List.length rem) by (rewrite <- (map_length Some coms'), Mc, map_length; reflexivity).
  assert (Ek : map fst (add ++ combine rem coms') = map fst add ++ rem).
  { rewrite map_app. f_equal. clear - Lc. revert rem Lc. induction coms' as [|c cs IH]; intros [|r rem] E; cbn in *; try discriminate E; [reflexivity|]. rewrite IH by lia. reflexivity. }
  assert (Em : map fst (combine rem coms') = rem).
  { rewrite map_app in Ek. apply app_inv_head in Ek. exact Ek. }
  rewrite <- Ek in *.
  apply (beforeAfter_honest (full f) hs (fun u => rem = [] \/ (2 <= List.length (contents u))%nat /\ exists a b, u = TN a b) t t'); auto.
  - apply full_tot.
  - apply At'.
  - rewrite Forall_forall in *. intros [k c] I.
    assert (Ic : assoc (contents t) k = Some c).
    { clear - I Mc. revert coms' Mc I. induction rem as [|r rem IH]; intros [|x xs] E I; cbn in *; try contradiction; try discriminate E.
      injection E as E1 E2. destruct I as [I|I]; [congruence|eauto]. }
    split; [apply A2; eapply in_combine_l; eauto|]. apply (NoDup_contents_assoc t k c C) in Ic. destruct (Canon_In _ _ _ C _ Ic) as [_ [B _]]. split; [exact B|exact Ic].
  - intros k I. destruct (assoc (contents t) k) eqn:Q; [|reflexivity]. exfalso.
    assert (In k rem) by (apply A5; [exact I|congruence]).
    rewrite Ek in ND. clear - ND I H. induction (map fst add) as [|x l IH]; [destruct I|]. cbn in ND. inversion ND as [|? ? N1 N2]; subst.
    destruct I as [->|I]; [apply N1; apply in_or_app; auto|auto].
  - intros x. rewrite Nc, Em. reflexivity.
  - destruct rem as [|r rem]; [left; reflexivity|right]. intros u [U|[_ U]]; [discriminate U|exact U].
  - destruct CA as [->|CA]; [|].
    + assert (G : forall t ks d, copathAll (fun u => @nil bytes = [] \/ (2 <= List.length (contents u))%nat /\ exists a b, u = TN a b) t ks d).
      { induction t0 as [|k c|l IHl r IHr]; intros ks d; destruct ks; cbn; auto. }
      apply G.
    + specialize (CA t (conj C Tm)). rewrite <- Ek in CA || idtac.
      assert (G : forall t p ks d, Canon hs p t -> copathAll (fun u => (2 <= List.length (contents u))%nat) t ks d ->
         copathAll (fun u => rem = [] \/ (2 <= List.length (contents u))%nat /\ exists a b, u = TN a b) t ks d).
      { induction t0 as [|k c|l IHl r IHr]; intros p ks d Cu Q; destruct ks as [|k0 ks]; cbn [copathAll] in *; auto.
        - cbn in Q. lia.
        - cbn in Q. lia.
        - right. split; [exact Q|eauto].
        - destruct Cu as [Cl [Cr _]]. destruct Q as [Q1 Q2]. split; eauto. }
      eapply G; eauto.
Qed.
End Hist.

(** ** Adversarial proofs against the root of a version *)

Lemma verify_sound f hs T entries p t root : (forall x, List.length (f x) = hs) -> Canon hs [] t -> wfProof hs p ->
  noAlias entries (p_results p) -> thash (restrict f T) hs t = Some root ->
  Evaluate (restrict f T) hs entries p = Ok root ->
  List.length (p_results p) = List.length entries /\
  (forall e r, In (e, r) (combine entries (p_results p)) -> assoc (contents t) (fst e) = if rincl r then Some (snd e) else None)
  \/ broken f hs T.
Proof.
  intros Hs C W NA Et E. unfold Evaluate in E. apply bind_ok in E. destruct E as [n [En Eh]].
  destruct (evaluate_match f hs T entries p n t root Hs C En W NA Eh Et) as [[_ V]|B]; [left|right; exact B].
  split; [|exact V]. destruct (evaluate_inv _ _ _ _ En) as [_ [_ [L _]]]. symmetry. exact L.
Qed.

Lemma verify_sound_weak f hs T entries p t root : (forall x, List.length (f x) = hs) -> Canon hs [] t -> wfProof hs p ->
  agreeing entries (p_results p) -> thash (restrict f T) hs t = Some root ->
  Evaluate (restrict f T) hs entries p = Ok root ->
  (forall e r, In (e, r) (combine entries (p_results p)) -> (forall v c d, r = NonLeaf v c d -> v <> fst e) ->
     assoc (contents t) (fst e) = if rincl r then Some (snd e) else None)
  \/ broken f hs T.
Proof.
  intros Hs C W NA Et E. unfold Evaluate in E. apply bind_ok in E. destruct E as [n [En Eh]].
  destruct (evaluate_match_weak f hs T entries p n t root Hs C En W NA Eh Et) as [[_ V]|B]; [left; exact V|right; exact B].
Qed.

Lemma tile_stored H hs d id n raw : (forall x h, H x = Some h -> List.length h = hs) -> sizedNode hs n -> tileMarshal H hs d n = Ok raw ->
  exists n', tileUnmarshal hs id raw = Ok (d, n') /\ storedAs H hs id n n'.
Proof.
  intros Hs W E. exists (norm H hs d id n).
  assert (W' : wfNode hs n) by (clear - W; induction n; cbn in *; tauto). split; [apply (tile_roundtrip H hs Hs d id n raw W' E)|].
  clear. revert d. induction n as [|v c|l IHl r IHr h i|h i]; intros d; cbn [norm storedAs]; auto.
  split; [auto|]. split; [auto|]. split; [reflexivity|]. intros x X. destruct (storeIntermediate d); [|discriminate X].
  unfold okOpt in X. destruct (nodeHash H hs (Parent l r h i)); try discriminate X. congruence.
Qed.

Lemma verify_inclusion f hs T entries p t root :
  (forall x, List.length (f x) = hs) -> Canon hs [] t -> Forall (fun h : bytes => List.length h = hs) (p_elements p) ->
  (forall r, In r (p_results p) -> rincl r = true) ->
  thash (restrict f T) hs t = Some root -> Evaluate (restrict f T) hs entries p = Ok root ->
  (forall e, In e entries -> assoc (contents t) (fst e) = Some (snd e)) \/ broken f hs T.
Proof.
  intros Hs C W All Et E.
  destruct (verify_sound f hs T entries p t root Hs C) as [[L V]|B]; auto.
  - split; [exact W|]. intros v c d I. apply All in I. discriminate I.
  - split; [intros e v c d I; apply in_combine_r in I|intros v c d e r I]; apply All in I; discriminate I.
  - left. intros e I. destruct (In_combine_l entries (p_results p) (eq_sym L) e I) as [r J]. rewrite (V e r J), All; [reflexivity|]. eapply in_combine_r; eauto.
Qed.

Lemma calm_or {A} (r : res A) : calm r -> (exists a, r = Ok a) \/ (exists m, r = Fail m).
Proof. destruct r; cbn; intros C; try contradiction; eauto. Qed.

Lemma audit_no_panic H hs add rem p :
  wfProof hs p -> (forall r, In r (p_results p) -> (rdepth r <= 8 * hs)%nat) ->
  noAlias (add ++ rem) (p_results p) ->
  (forall e r, In (e, r) (combine (add ++ rem) (p_results p)) -> leafOnPath e r /\ (In e add -> rincl r = false)) ->
  Forall (fun e : bytes * bytes => List.length (snd e) = hs) add ->
  (exists hh, EvaluateBeforeAfter H hs add rem p = Ok hh) \/ (exists msg, EvaluateBeforeAfter H hs add rem p = Fail msg).
Proof. intros. apply calm_or. apply audit_calm; auto. Qed.

Lemma evaluate_no_panic H hs entries p :
  (forall r, In r (p_results p) -> (rdepth r <= 8 * hs)%nat) ->
  (exists h, Evaluate H hs entries p = Ok h) \/ (exists msg, Evaluate H hs entries p = Fail msg).
Proof.
  intros D. apply calm_or. unfold Evaluate. destruct (evaluate_calm hs entries p D) as [C _].
  apply calm_bind; [exact C|]. intros n _. apply nodeHash_calm.
Qed.

Lemma hist_old f hs s past m h add rem root proof coms s' :
  (forall x, List.length (f x) = hs) -> (hs <= 32)%nat -> hist f hs s (past ++ [(m, h)]) ->
  lenN past + 1 < two64 -> add <> [] \/ rem <> [] -> lenN add + lenN rem < two32 ->
  mutate (full f) hs s (lenN past) add rem = Ok (root, proof, coms, s') ->
  (forall id raw, sget s id = Some raw -> sget s' id = Some raw) /\
  (forall v keys r, search (full f) hs s v keys = Ok r -> search (full f) hs s' v keys = Ok r) /\
  (forall v mv hv keys, nth_error (past ++ [(m, h)]) (N.to_nat v) = Some (mv, hv) -> 0 < v -> keys <> [] ->
     Forall (fun k : bytes => List.length k = hs) keys ->
     exists proof, search (full f) hs s' v keys = Ok (proof, map mv keys)).
Proof.
  intros Hs Hl Hh L NE Sz M. destruct (hist_stable f hs Hs Hl s past m h add rem root proof coms s' Hh L NE Sz M) as [A B].
  split; [exact A|]. split; [exact B|]. intros v mv hv keys E V N F.
  destruct (hist_search f hs Hs Hl s _ v mv hv keys Hh E V N F) as [p [P _]]. exists p. apply B. exact P.
Qed.

Lemma c32_first f hs : (forall x, List.length (f x) = hs) -> (hs <= 32)%nat ->
  exists proof s', mutate (full f) hs [] 0 [] [] = Ok (repeat x00 hs, proof, [], s').
Proof.
  intros Hs Hl. assert (E : forall k, addRemove (full f) hs (k + 1) Empty [] [] 0 = Ok Empty) by (intro k; rewrite Nat.add_comm; reflexivity).
  do 2 eexists. unfold mutate. cbn -[addRemove Nat.mul]. change (depthFuel hs) with (8 * hs + 1)%nat. rewrite E. cbn. reflexivity.
Qed.
