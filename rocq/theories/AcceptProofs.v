(** What a client knows after a search it did not refuse, whatever it was sent: which entries of which prefix trees were proven. *)
From Verif Require Import Base BaseProofs LogMathSpec TransMathModel TransMathSpec TransMathProofs TransMathProofs2 LaddersModel LaddersProofs PrefixModel
  CodecModel AlgModel AlgSpec AlgProofs AlgProofs2 AlgProofs3 HandleModel HandleProofs HandleProofs8 ClientModel ClientProofs2.
Open Scope N_scope.
Local Open Scope list_scope.

(** ** Programs that ask for timestamps only *)

Fixpoint quiet {A} (p : prog A) : Prop :=
  match p with
  | Ret _ | Err _ | Crash _ | Diverge => True
  | GetTs x k e => (forall a, quiet (k a)) /\ (forall m, quiet (e m))
  | StopCond x v k => forall b, quiet (k b)
  | _ => False
  end.

Lemma quiet_bind {A B} (p : prog A) (k : A -> prog B) : quiet p -> (forall a, quiet (k a)) -> quiet (pbind p k).
Proof. intros Hp Hk. induction p; cbn [quiet pbind] in *; intuition. Qed.
Lemma quiet_catch {A} (p : prog A) h : quiet p -> (forall m, quiet (h m)) -> quiet (pcatch p h).
Proof. intros Hp Hk. induction p; cbn [quiet pcatch] in *; intuition. Qed.
Lemma quiet_lift {A} (r : res A) : quiet (lift r).
Proof. destruct r; exact I. Qed.
Lemma quiet_getTs x : quiet (getTs x).
Proof. cbn. auto. Qed.
Ltac quiet1 :=
  repeat first
    [ exact I | apply quiet_lift | apply quiet_getTs | apply quiet_bind; [|intros] | apply quiet_catch; [|intros]
    | match goal with |- quiet (if ?b then _ else _) => destruct b | |- quiet (match ?x with _ => _ end) => destruct x end ].
Lemma quiet_all xs : quiet (getAllTs xs).
Proof. induction xs; cbn [getAllTs]; quiet1. exact IHxs. Qed.
Lemma quiet_view c now n m : quiet (updateView c now n m).
Proof. unfold updateView. quiet1. apply quiet_all. Qed.
Lemma quiet_rightmost_loop c fuel : forall n r x, quiet (rightmost_loop c fuel n r x).
Proof. induction fuel; intros; cbn [rightmost_loop]; quiet1. apply IHfuel. Qed.
Lemma quiet_rightmost c n : quiet (rightmostDistinguished c n).
Proof.
  unfold rightmostDistinguished. destruct (n =? 0); [exact I|]. apply quiet_bind; [apply quiet_getTs|]. intro. destruct (negb _); [exact I|]. apply quiet_rightmost_loop.
Qed.

(** ** The client's provider only learns *)

Section Client.
Variable H : bytes -> option bytes.
Variable hs : N.
Local Notation RH := (receivedHandle H hs).
Local Notation P := (dpProvider RH).
Local Notation nhs := (N.to_nat hs).
Local Notation provider := (dataProvider received).

Definition vers (d : provider) : verMap := r_versions (d_handle d).
Definition track (d : provider) : tracker := r_tracker (d_handle d).
Definition rootsTimed (d : provider) : Prop := forall x r, mget (d_roots d) x = Some r -> mget (d_ts d) x <> None.

(** All timestamps, known or still to be read, are 64 bit numbers. *)
Definition smallTs (d : provider) : Prop := Forall (fun t => t < two64) (r_ts (d_handle d)) /\ forall x t, mget (d_ts d) x = Some t -> t < two64.

Record ext (d d' : provider) : Prop := {
  x_sub : d_subtrees d' = d_subtrees d;
  x_ret : d_retained d' = d_retained d;
  x_vers : vers d' = vers d;
  x_proofs : incl (r_proofs (d_handle d')) (r_proofs (d_handle d));
  x_roots : forall x r, mget (d_roots d) x = Some r -> mget (d_roots d') x = Some r;
  x_ts : forall x t, mget (d_ts d) x = Some t -> mget (d_ts d') x = Some t;
  x_timed : rootsTimed d -> rootsTimed d';
  x_small : smallTs d -> smallTs d' }.

Lemma ext_refl d : ext d d.
Proof. constructor; auto. apply incl_refl. Qed.
Lemma ext_trans d1 d2 d3 : ext d1 d2 -> ext d2 d3 -> ext d1 d3.
Proof.
  intros [A1 A2 A3 A4 A5 A6 A7 A8] [B1 B2 B3 B4 B5 B6 B7 B8]. constructor; try congruence; auto. eapply incl_tran; eassumption.
Qed.

Lemma rTs_ext r x : r_versions (snd (rTs r x)) = r_versions r /\ r_proofs (snd (rTs r x)) = r_proofs r /\ r_tracker (snd (rTs r x)) = r_tracker r /\
  incl (r_ts (snd (rTs r x))) (r_ts r) /\ forall t, fst (rTs r x) = Ok t -> In t (r_ts r).
Proof.
  unfold rTs. destruct (r_ts r) as [|t0 rest] eqn:E0; cbn; repeat split; auto; try discriminate.
  - rewrite E0. apply incl_refl.
  - intros y Hy. now right.
  - intros t E. injection E as <-. now left.
Qed.

Lemma withHandle_ext d h : r_versions h = vers d -> incl (r_proofs h) (r_proofs (d_handle d)) -> incl (r_ts h) (r_ts (d_handle d)) -> ext d (withHandle d h).
Proof. intros A B C. constructor; cbn; auto. intros [S1 S2]. split; cbn; [|exact S2]. eapply incl_Forall; eassumption. Qed.

Lemma dpTs_ext d x : ext d (snd (dpTs RH d x)) /\ track (snd (dpTs RH d x)) = track d /\ d_roots (snd (dpTs RH d x)) = d_roots d /\
  match fst (dpTs RH d x) with Ok t => mget (d_ts (snd (dpTs RH d x))) x = Some t | _ => mget (d_ts (snd (dpTs RH d x))) x = None end.
Proof.
  unfold dpTs. destruct (mget (d_ts d) x) as [t|] eqn:Et; [cbn; split; [apply ext_refl|]; auto|].
  cbn [receivedHandle hTs]. destruct (rTs_ext (d_handle d) x) as (A & B & C & D & F). destruct (rTs (d_handle d) x) as [r h]. cbn [fst snd] in A, B, C, D, F.
  assert (E : ext d (withHandle d h)). { apply withHandle_ext; [exact A|rewrite B; apply incl_refl|exact D]. }
  destruct r as [t|e|e|]; cbn [fst snd]; try (split; [exact E|]; split; [exact C|]; split; [reflexivity|exact Et]).
  unfold addTimestamp. cbn [withHandle d_ts]. destruct (mhas (d_ts d) x); [cbn [fst snd]; split; [exact E|]; split; [exact C|]; split; [reflexivity|exact Et]|].
  destruct (existsb _ (d_ts d)); [cbn [fst snd]; split; [exact E|]; split; [exact C|]; split; [reflexivity|exact Et]|].
  cbn [fst snd withTs withHandle d_ts d_roots d_handle]. split; [|split; [exact C|split; [reflexivity|]]].
  - constructor; cbn; auto; try (rewrite B; apply incl_refl).
    + intros y t' Hy. rewrite ?mget_mput. destruct (N.eqb_spec y x) as [->|]; [congruence|exact Hy].
    + intros Td y r Hy. cbn in *. rewrite ?mget_mput. destruct (N.eqb_spec y x); [discriminate|]. exact (Td y r Hy).
    + intros [S1 S2]. split; cbn; [eapply incl_Forall; eassumption|]. intros y t' Hy. rewrite ?mget_mput in Hy. destruct (N.eqb_spec y x); [|eapply S2; eassumption].
      injection Hy as <-. rewrite Forall_forall in S1. apply S1. now apply F.
  - rewrite ?mget_mput, N.eqb_refl. reflexivity.
Qed.

Lemma dpRoot_ext {A} d x (r : res (bytes * A)) h : mget (d_ts d) x <> None -> r_versions h = vers d /\ incl (r_proofs h) (r_proofs (d_handle d)) /\ incl (r_ts h) (r_ts (d_handle d)) ->
  ext d (snd (dpRoot d x r h)).
Proof.
  intros Hx (A1 & A2 & A3). pose proof (withHandle_ext d h A1 A2 A3) as E. unfold dpRoot. destruct r as [[root a]|e|e|]; try exact E.
  unfold addPrefixTree. cbn [withHandle d_roots]. destruct (mget (d_roots d) x) as [old|] eqn:Eo.
  - destruct (bytes_eqb root old); [|exact E]. cbn. constructor; cbn; auto. apply (x_small _ _ E).
  - cbn. constructor; cbn; auto; try apply (x_small _ _ E).
    + intros y r Hy. rewrite ?mget_mput. destruct (N.eqb_spec y x) as [->|]; [congruence|exact Hy].
    + intros Td y r. cbn. rewrite ?mget_mput. destruct (N.eqb_spec y x) as [->|]; [intros _; exact Hx|apply Td].
Qed.

Lemma keeping_ext {A} r (a : res (A * received)) : (forall y r', a = Ok (y, r') -> r_versions r' = r_versions r /\ incl (r_proofs r') (r_proofs r) /\ incl (r_ts r') (r_ts r)) ->
  r_versions (snd (keeping r a)) = r_versions r /\ incl (r_proofs (snd (keeping r a))) (r_proofs r) /\ incl (r_ts (snd (keeping r a))) (r_ts r).
Proof. intro K. destruct a as [[y r']|e|e|]; cbn; try (split; [reflexivity|split; apply incl_refl]). eapply K. reflexivity. Qed.

Lemma rLadder_ext r x v o : r_versions (snd (rLadder H hs r x v o)) = r_versions r /\ incl (r_proofs (snd (rLadder H hs r x v o))) (r_proofs r) /\ incl (r_ts (snd (rLadder H hs r x v o))) (r_ts r).
Proof.
  unfold rLadder. apply keeping_ext. intros y r' E. destruct (r_proofs r) as [|pf rest]; [discriminate|]. destruct (searchMaps _ x o) as [li rn].
  repeat (apply bind_ok in E; destruct E as (? & _ & E)). injection E as _ <-. cbn. split; [reflexivity|]. split; [intros q Hq; now right|apply incl_refl].
Qed.
Lemma rMon_ext r x v : r_versions (snd (rMon H hs r x v)) = r_versions r /\ incl (r_proofs (snd (rMon H hs r x v))) (r_proofs r) /\ incl (r_ts (snd (rMon H hs r x v))) (r_ts r).
Proof.
  unfold rMon. apply keeping_ext. intros y r' E. destruct (r_proofs r) as [|pf rest]; [discriminate|].
  apply bind_ok in E. destruct E as (ladder & _ & E). destruct (negb _); [discriminate|]. destruct (negb _); [discriminate|].
  repeat (apply bind_ok in E; destruct E as (? & _ & E)). injection E as _ <-. cbn. split; [reflexivity|]. split; [intros q Hq; now right|apply incl_refl].
Qed.
Lemma rIncl_ext r x v : r_versions (snd (rIncl H hs r x v)) = r_versions r /\ incl (r_proofs (snd (rIncl H hs r x v))) (r_proofs r) /\ incl (r_ts (snd (rIncl H hs r x v))) (r_ts r).
Proof.
  unfold rIncl. apply keeping_ext. intros y r' E. destruct (r_proofs r) as [|pf rest]; [discriminate|].
  destruct (negb _); [discriminate|]. destruct (negb _); [discriminate|].
  repeat (apply bind_ok in E; destruct E as (? & _ & E)). injection E as _ <-. cbn. split; [reflexivity|]. split; [intros q Hq; now right|apply incl_refl].
Qed.

Lemma preserves_ext d0 : preserves P (ext d0).
Proof.
  constructor.
  - intros d x E. eapply ext_trans; [exact E|]. apply dpTs_ext.
  - intros d x v o E. eapply ext_trans; [exact E|]. cbn. unfold dpLadder. pose proof (dpTs_ext d x) as (E1 & _ & _ & E2).
    destruct (dpTs RH d x) as [[t|e|e|] d1]; cbn [fst snd] in *; try exact E1. eapply ext_trans; [exact E1|].
    cbn [receivedHandle hLadder]. pose proof (rLadder_ext (d_handle d1) x v o) as AB. destruct (rLadder H hs (d_handle d1) x v o) as [r h].
    apply dpRoot_ext; auto. rewrite E2. discriminate.
  - intros d x v E. eapply ext_trans; [exact E|]. cbn. unfold dpMon. pose proof (dpTs_ext d x) as (E1 & _ & _ & E2).
    destruct (dpTs RH d x) as [[t|e|e|] d1]; cbn [fst snd] in *; try exact E1. eapply ext_trans; [exact E1|].
    cbn [receivedHandle hMon]. pose proof (rMon_ext (d_handle d1) x v) as AB. destruct (rMon H hs (d_handle d1) x v) as [r h].
    apply dpRoot_ext; auto. rewrite E2. discriminate.
  - intros d x v E. eapply ext_trans; [exact E|]. cbn. unfold dpIncl. destruct v as [|v0 vt]; [apply ext_refl|]. pose proof (dpTs_ext d x) as (E1 & _ & _ & E2).
    destruct (dpTs RH d x) as [[t|e|e|] d1]; cbn [fst snd] in *; try exact E1. eapply ext_trans; [exact E1|].
    cbn [receivedHandle hIncl]. pose proof (rIncl_ext (d_handle d1) x (v0 :: vt)) as AB. destruct (rIncl H hs (d_handle d1) x (v0 :: vt)) as [r h].
    apply dpRoot_ext; auto. rewrite E2. discriminate.
  - intros d x o g l E. eapply ext_trans; [exact E|]. apply withHandle_ext; [reflexivity|apply incl_refl|apply incl_refl].
Qed.

Lemma run_ext {A} (p : prog A) d : ext d (final (run P p d)).
Proof. apply (run_keeps P (ext d) p (preserves_ext d)). apply ext_refl. Qed.

Lemma run_quiet {A} (p : prog A) : quiet p -> forall d, track (final (run P p d)) = track d /\ d_roots (final (run P p d)) = d_roots d.
Proof.
  induction p; cbn [quiet]; intros Q d; try contradiction; cbn [run]; try (split; reflexivity).
  - destruct Q as [Q1 Q2]. pose proof (dpTs_ext d x) as (_ & K1 & K2 & _). cbn [pTs dpProvider]. destruct (dpTs RH d x) as [[t|m|m|] d1]; rewrite final_addEv; cbn [fst snd] in *.
    + destruct (H0 t (Q1 t) d1) as [K1' K2']. split; congruence.
    + destruct (H1 m (Q2 m) d1) as [K1' K2']. split; congruence.
    + cbn. auto.
    + cbn. auto.
  - rewrite final_addEv. now apply H0.
Qed.

(** ** One ladder *)

Lemma lookup_spec vm : forall vs inc es, lookupEntries vm vs inc = Ok es -> forall i v b, nth_error vs i = Some v -> nth_error inc i = Some b ->
  exists key o, mget vm v = Some (key, o) /\ nth_error es i = Some (key, match o with Some c => c | None => [] end) /\ (b = true -> o <> None).
Proof.
  induction vs as [|w vs IH]; intros inc es E i v b Hv Hb; [destruct i; discriminate|]. destruct inc as [|i0 inc]; [destruct i; discriminate|].
  cbn [lookupEntries] in E. destruct (mget vm w) as [[key o]|] eqn:Ew; [|discriminate]. destruct (i0 && _) eqn:Eb; [discriminate|].
  apply bind_ok in E. destruct E as (rest & Er & E). injection E as <-. destruct i as [|i].
  - cbn in Hv, Hb. injection Hv as <-. injection Hb as <-. exists key, o. split; [exact Ew|]. split; [reflexivity|]. intros ->. destruct o; [discriminate|discriminate Eb].
  - cbn in Hv, Hb |- *. eapply IH; eassumption.
Qed.

Lemma lookup_known vm : forall vs rs es, lookupEntries vm vs (map rincl rs) = Ok es -> forall e r, In (e, r) (combine es rs) ->
  exists w o, mget vm w = Some (fst e, o) /\ snd e = match o with Some c => c | None => [] end /\ (rincl r = true -> o <> None).
Proof.
  induction vs as [|w vs IH]; intros rs es E e r He; [injection E as <-; destruct He|]. destruct rs as [|r0 rs]; [injection E as <-; destruct He|].
  cbn [map lookupEntries] in E. destruct (mget vm w) as [[key o]|] eqn:Ew; [|discriminate]. destruct (rincl r0 && _) eqn:Eb; [discriminate|].
  apply bind_ok in E. destruct E as (rest & Er & E). injection E as <-. destruct He as [He|He]; [|eapply IH; eassumption].
  injection He as <- <-. exists w, o. split; [exact Ew|]. split; [reflexivity|]. intros Q ->. rewrite Q in Eb. discriminate Eb.
Qed.

Lemma interpret_spec ver : forall ladder results z, (List.length results <= List.length ladder)%nat -> interpret_loop ladder ver results = Ok z ->
  (z = -1 \/ z = 0 \/ z = 1)%Z /\
  (z = 0%Z -> forall i v, nth_error ladder i = Some v -> nth_error results i = Some (v <=? ver)) /\
  (z <> (-1)%Z -> forall i v, nth_error ladder i = Some v -> nth_error results i = Some false -> ver < v) /\
  (z <> 1%Z -> forall i v, nth_error ladder i = Some v -> nth_error results i = Some true -> v <= ver).
Proof.
  induction ladder as [|w ladder IH]; intros results z L E.
  - injection E as <-. split; [auto|]. split; [|split]; intros _ [|i] v; discriminate.
  - destruct results as [|r results]; [discriminate|]. cbn [interpret_loop] in E. cbn in L.
    destruct (r && (ver <? w)) eqn:E1.
    + apply andb_true_iff in E1. destruct E1 as [-> E1]. destruct results; [|discriminate]. injection E as <-. split; [auto|]. split; [discriminate|]. split; [|congruence].
      intros _ [|[|i]] v; cbn; discriminate.
    + destruct (negb r && (w <=? ver)) eqn:E2.
      * apply andb_true_iff in E2. destruct E2 as [E0 E2]. destruct r; [discriminate|]. destruct results; [|discriminate]. injection E as <-. split; [auto|]. split; [discriminate|].
        split; [congruence|]. intros _ [|[|i]] v; cbn; discriminate.
      * destruct (IH results z ltac:(lia) E) as (A & B & C & D). split; [exact A|]. split; [|split].
        -- intros Hz [|i] v; cbn; [|apply B; exact Hz]. intro Hv. injection Hv as <-. f_equal. destruct r; cbn in E1, E2; lia.
        -- intros Hz [|i] v; cbn; [|apply C; exact Hz]. intros Hv Hr. injection Hv as <-. injection Hr as ->. cbn in E2. lia.
        -- intros Hz [|i] v; cbn; [|apply D; exact Hz]. intros Hv Hr. injection Hv as <-. injection Hr as ->. cbn in E1. lia.
Qed.

(** In the prefix tree of entry [x], version [v] was proven to be there ([b]), or not to be there, by one of the proofs [pfs]. *)
Definition fact (pfs : list pproof) (vm : verMap) (roots : list (N * bytes)) (x v : N) (b : bool) : Prop :=
  exists root es pf i key o r,
    mget roots x = Some root /\ In pf pfs /\ Evaluate H nhs es pf = Ok root /\
    (forall e r, In (e, r) (combine es (p_results pf)) -> exists w o, mget vm w = Some (fst e, o) /\ snd e = match o with Some c => c | None => [] end /\ (rincl r = true -> o <> None)) /\
    mget vm v = Some (key, o) /\ nth_error es i = Some (key, match o with Some c => c | None => [] end) /\
    nth_error (p_results pf) i = Some r /\ rincl r = b /\ (b = true -> o <> None).

Definition factD (pfs : list pproof) (d : provider) : N -> N -> bool -> Prop := fact pfs (vers d) (d_roots d).

Lemma fact_ext pfs d d' x v b : ext d d' -> factD pfs d x v b -> factD pfs d' x v b.
Proof.
  intros E (root & es & pf & i & key & o & r & A & B). unfold factD. rewrite (x_vers _ _ E). exists root, es, pf, i, key, o, r. split; [apply (x_roots _ _ E); exact A|exact B].
Qed.

(** Everything the tracker remembers was proven. *)
Definition tracked (pfs : list pproof) (d : provider) : Prop :=
  (forall x vs v, In (x, vs) (tr_inc (track d)) -> In v vs -> factD pfs d x v true) /\
  (forall x vs v, In (x, vs) (tr_non (track d)) -> In v vs -> factD pfs d x v false).

Lemma tracked_ext pfs d d' : ext d d' -> track d' = track d -> tracked pfs d -> tracked pfs d'.
Proof.
  intros E Q [A B]. split; rewrite Q; intros; eapply fact_ext; eauto.
Qed.

Lemma In_combine_nth {A B} (xs : list A) (ys : list B) x y : In (x, y) (combine xs ys) -> exists i, nth_error xs i = Some x /\ nth_error ys i = Some y.
Proof.
  revert ys. induction xs as [|a xs IH]; intros [|b ys]; cbn; try contradiction. intros [E|I]; [injection E as <- <-; exists 0%nat; auto|].
  destruct (IH ys I) as [i Hi]. exists (S i). exact Hi.
Qed.

Lemma base_in ver base : ver < 2 ^ 32 -> baseBinaryLadder ver = Ok base -> ver < 2 ^ 31 - 1 /\ In ver base /\ In (ver + 1) base.
Proof.
  intros Hv E. destruct (N.lt_ge_cases ver (2 ^ 31 - 1)) as [L|L].
  - destruct (base_spec ver L) as (l & E' & A & B & _). rewrite E in E'. injection E' as <-. auto.
  - unfold baseBinaryLadder in E. rewrite base_diverges in E by lia. discriminate.
Qed.

Lemma dpLadder_ok pfs d x ver z d' : incl (r_proofs (d_handle d)) pfs -> tracked pfs d -> dpLadder RH d x ver true = (Ok z, d') ->
  tracked pfs d' /\ (z = -1 \/ z = 0 \/ z = 1)%Z /\
  (exists incs nons, track d' = mkTracker (tr_inc (track d) ++ [(x, incs)]) (tr_non (track d) ++ [(x, nons)]) /\
     (z <> 1%Z -> forall v, In v incs -> v <= ver) /\ (z <> (-1)%Z -> forall v, In v nons -> ver < v)) /\
  (z = 0%Z -> exists base, baseBinaryLadder ver = Ok base /\ forall v, In v base ->
     factD pfs d' x v (v <=? ver) \/
     (exists y vs, In (y, vs) (tr_inc (track d)) /\ y < x /\ In v vs) \/
     (exists y vs, In (y, vs) (tr_non (track d)) /\ x < y /\ In v vs)).
Proof.
  intros Hp Ht E. unfold dpLadder in E. pose proof (dpTs_ext d x) as (E1 & T1 & R1 & E2).
  destruct (dpTs RH d x) as [[t|e|e|] d1]; cbn [fst snd] in *; try discriminate.
  cbn [receivedHandle hLadder] in E. pose proof (rLadder_ext (d_handle d1) x ver true) as AB. destruct (rLadder H hs (d_handle d1) x ver true) as [r h] eqn:El.
  pose proof (dpRoot_ext d1 x r h ltac:(rewrite E2; discriminate) AB) as E3. unfold dpRoot in E, E3.
  destruct r as [[root z']|e|e|]; try discriminate. destruct (addPrefixTree (d_roots (withHandle d1 h)) x root) as [m| | |] eqn:Em; try discriminate.
  injection E as -> <-. cbn [snd] in E3.
  assert (Hroot : mget m x = Some root).
  { unfold addPrefixTree in Em. destruct (mget (d_roots (withHandle d1 h)) x) as [old|] eqn:Eo.
    - destruct (bytes_eqb root old) eqn:Eq; [|discriminate]. apply bytes_eqb_eq in Eq. subst old. injection Em as <-. exact Eo.
    - injection Em as <-. rewrite mget_mput, N.eqb_refl. reflexivity. }
  unfold rLadder in El. unfold keeping in El.
  destruct (r_proofs (d_handle d1)) as [|pf rest] eqn:Epf; [discriminate|].
  assert (Hpf : In pf pfs). { apply Hp. apply (x_proofs _ _ E1). rewrite Epf. now left. }
  fold (track d1) in El. rewrite T1 in El. unfold searchMaps in El. cbn [negb] in El.
  set (li := flat_map _ (tr_inc (track d))) in El. set (rn := flat_map _ (tr_non (track d))) in El.
  destruct (searchBinaryLadder ver ver li rn) as [ladder| | |] eqn:Es; try discriminate. cbn [bind] in El.
  destruct (interpretSearchLadder ladder ver (map rincl (p_results pf))) as [z0| | |] eqn:Ei; try discriminate. cbn [bind] in El.
  destruct (lookupEntries (r_versions (d_handle d1)) ladder (map rincl (p_results pf))) as [es| | |] eqn:Elk; try discriminate. cbn [bind] in El.
  destruct (Evaluate H nhs es pf) as [root'| | |] eqn:Ev; try discriminate. cbn [bind] in El. injection El as -> -> <-.
  set (d2 := withRoots _ m) in *.
  assert (Hvm : vers d2 = vers d1) by (rewrite (x_vers _ _ E3); reflexivity).
  (* a fact for every result *)
  assert (HF : forall i v b, nth_error ladder i = Some v -> nth_error (map rincl (p_results pf)) i = Some b -> factD pfs d2 x v b).
  { intros i v b Hv Hb. destruct (lookup_spec _ _ _ _ Elk i v b Hv Hb) as (key & o & K1 & K2 & K3).
    rewrite nth_error_map in Hb. destruct (nth_error (p_results pf) i) as [r0|] eqn:Er; [|discriminate]. injection Hb as Hb.
    exists root, es, pf, i, key, o, r0. split; [exact Hroot|]. split; [exact Hpf|]. split; [exact Ev|]. split; [rewrite Hvm; exact (lookup_known _ _ _ _ Elk)|].
    split; [rewrite Hvm; exact K1|]. auto. }
  unfold interpretSearchLadder in Ei. destruct (List.length ladder <? List.length (map rincl (p_results pf)))%nat eqn:Elen; [discriminate|]. apply Nat.ltb_ge in Elen.
  destruct (interpret_spec _ _ _ _ Elen Ei) as (Z1 & Z2 & Z3 & Z4).
  assert (Tr : track d2 = mkTracker (tr_inc (track d) ++ [(x, map fst (filter (fun p => snd p) (combine ladder (map rincl (p_results pf)))))])
                                    (tr_non (track d) ++ [(x, map fst (filter (fun p => negb (snd p)) (combine ladder (map rincl (p_results pf)))))])).
  { unfold d2, track. cbn. unfold addResults. cbn. reflexivity. }
  assert (Ein : forall v, In v (map fst (filter (fun p => snd p) (combine ladder (map rincl (p_results pf))))) ->
            exists i, nth_error ladder i = Some v /\ nth_error (map rincl (p_results pf)) i = Some true).
  { intros v Hv. apply in_map_iff in Hv. destruct Hv as ([v' b] & <- & Hv). apply filter_In in Hv. destruct Hv as [Hv Hb]. cbn in Hb. subst b. apply In_combine_nth in Hv. exact Hv. }
  assert (Eno : forall v, In v (map fst (filter (fun p => negb (snd p)) (combine ladder (map rincl (p_results pf))))) ->
            exists i, nth_error ladder i = Some v /\ nth_error (map rincl (p_results pf)) i = Some false).
  { intros v Hv. apply in_map_iff in Hv. destruct Hv as ([v' b] & <- & Hv). apply filter_In in Hv. destruct Hv as [Hv Hb]. cbn in Hb. destruct b; [discriminate|]. apply In_combine_nth in Hv. exact Hv. }
  assert (E13 : ext d d2) by (eapply ext_trans; eassumption).
  split; [|split; [exact Z1|split]].
  - destruct Ht as [Ht1 Ht2]. split; rewrite Tr; cbn [tr_inc tr_non]; intros y vs v Hin Hv; apply in_app_or in Hin; destruct Hin as [Hin|[Hin|[]]].
    + eapply fact_ext; [exact E13|]. eapply Ht1; eassumption.
    + injection Hin as <- <-. destruct (Ein v Hv) as (i & I1 & I2). eapply HF; eassumption.
    + eapply fact_ext; [exact E13|]. eapply Ht2; eassumption.
    + injection Hin as <- <-. destruct (Eno v Hv) as (i & I1 & I2). eapply HF; eassumption.
  - eexists _, _. split; [exact Tr|]. split.
    + intros Hz v Hv. destruct (Ein v Hv) as (i & I1 & I2). eapply Z4; eassumption.
    + intros Hz v Hv. destruct (Eno v Hv) as (i & I1 & I2). eapply Z3; eassumption.
  - intro Hz. unfold searchBinaryLadder in Es. destruct (baseBinaryLadder ver) as [base| | |] eqn:Eb; try discriminate. cbn [bind] in Es. injection Es as Es.
    exists base. split; [reflexivity|]. intros v Hv.
    assert (Hl : In v ladder \/ mem32 v li = true \/ mem32 v rn = true).
    { rewrite <- Es. clear -Hv. induction base as [|w base IH]; [destruct Hv|]. cbn [searchLadder_loop].
      replace (((w <=? ver) && (ver <? w)) || ((ver <? w) && (w <=? ver))) with false by (symmetry; lia).
      destruct Hv as [->|Hv].
      - destruct (mem32 v li); [auto|]. destruct (mem32 v rn); [auto|]. cbn. auto.
      - destruct (IH Hv) as [I|[I|I]]; auto. left. destruct (_ || _); [exact I|right; exact I]. }
    destruct Hl as [Hl|[Hl|Hl]].
    + left. apply In_nth_error in Hl. destruct Hl as [i Hi]. eapply HF; [exact Hi|]. apply Z2; assumption.
    + right. left. unfold mem32 in Hl. apply existsb_exists in Hl. destruct Hl as (w & Hw & Q). apply N.eqb_eq in Q. subst w. unfold li in Hw. apply in_flat_map in Hw.
      destruct Hw as ([y vs] & Hy & Hw). cbn in Hw. destruct (N.ltb_spec y x); [|destruct Hw]. exists y, vs. auto.
    + right. right. unfold mem32 in Hl. apply existsb_exists in Hl. destruct Hl as (w & Hw & Q). apply N.eqb_eq in Q. subst w. unfold rn in Hw. apply in_flat_map in Hw.
      destruct Hw as ([y vs] & Hy & Hw). cbn in Hw. destruct (N.ltb_spec x y); [|destruct Hw]. exists y, vs. auto.
Qed.

Lemma dpIncl_ok pfs d x ver d' : incl (r_proofs (d_handle d)) pfs -> dpIncl RH d x [ver] = (Ok tt, d') -> factD pfs d' x ver true.
Proof.
  intros Hp E. unfold dpIncl in E. pose proof (dpTs_ext d x) as (E1 & T1 & R1 & E2).
  destruct (dpTs RH d x) as [[t|e|e|] d1]; cbn [fst snd] in *; try discriminate.
  cbn [receivedHandle hIncl] in E. pose proof (rIncl_ext (d_handle d1) x [ver]) as AB. destruct (rIncl H hs (d_handle d1) x [ver]) as [r h] eqn:El.
  pose proof (dpRoot_ext d1 x (noResult r) h ltac:(rewrite E2; discriminate) AB) as E3. unfold dpRoot in E, E3.
  destruct r as [root|e|e|]; try discriminate. cbn [noResult bind] in E, E3. destruct (addPrefixTree (d_roots (withHandle d1 h)) x root) as [m| | |] eqn:Em; try discriminate.
  injection E as <-. cbn [snd] in E3.
  assert (Hroot : mget m x = Some root).
  { unfold addPrefixTree in Em. destruct (mget (d_roots (withHandle d1 h)) x) as [old|] eqn:Eo.
    - destruct (bytes_eqb root old) eqn:Eq; [|discriminate]. apply bytes_eqb_eq in Eq. subst old. injection Em as <-. exact Eo.
    - injection Em as <-. rewrite mget_mput, N.eqb_refl. reflexivity. }
  unfold rIncl, keeping in El. destruct (r_proofs (d_handle d1)) as [|pf rest] eqn:Epf; [discriminate|].
  assert (Hpf : In pf pfs). { apply Hp. apply (x_proofs _ _ E1). rewrite Epf. now left. }
  destruct (negb (_ =? 1)%nat) eqn:E5; [discriminate|]. apply negb_false_iff, Nat.eqb_eq in E5.
  destruct (negb (forallb _ _)) eqn:E6; [discriminate|]. apply negb_false_iff in E6.
  destruct (lookupEntries (r_versions (d_handle d1)) [ver] (map (fun _ => true) [ver])) as [es| | |] eqn:Elk; try discriminate. cbn [bind] in El.
  destruct (Evaluate H nhs es pf) as [root'| | |] eqn:Ev; try discriminate. cbn [bind] in El. injection El as -> <-.
  destruct (p_results pf) as [|r0 [|]] eqn:Er; try discriminate. cbn in E6. rewrite andb_true_r in E6.
  set (d2 := withRoots _ m) in *. assert (Hvm : vers d2 = vers d1) by (rewrite (x_vers _ _ E3); reflexivity).
  destruct (lookup_spec _ _ _ _ Elk 0%nat ver true eq_refl eq_refl) as (key & o & K1 & K2 & K3).
  exists root, es, pf, 0%nat, key, o, r0. split; [exact Hroot|]. split; [exact Hpf|]. split; [exact Ev|].
  split; [rewrite Hvm, Er; apply (lookup_known (vers d1) [ver] [r0]); cbn [map]; rewrite E6; exact Elk|].
  split; [rewrite Hvm; exact K1|]. rewrite Er. auto.
Qed.

(** ** Whole searches *)

Lemma run_getTs_dp d x : run P (getTs x) d = (fst (dpTs RH d x), snd (dpTs RH d x), [EvTs x (fst (dpTs RH d x))]).
Proof. cbn. destruct (dpTs RH d x) as [[t|e|e|] d']; reflexivity. Qed.
Lemma run_getLadder_dp d x v o : run P (getLadder x v o) d = (fst (dpLadder RH d x v o), snd (dpLadder RH d x v o), [EvLadder x v o (fst (dpLadder RH d x v o))]).
Proof. cbn. destruct (dpLadder RH d x v o) as [[t|e|e|] d']; reflexivity. Qed.

Section Searches.
Variable c : pubConfig.
Variable n : N.
Hypothesis Hn : 1 <= n < 2 ^ 64.
Variable front : list N.
Hypothesis Hfront : frontier n = Ok front.
Variable pfs : list pproof.
Variable ver : N.
Hypothesis Hver : ver < 2 ^ 32.

Definition onFrontier (a len : N) : Prop := SRange n a len /\ a + len = n /\ exists fr, SFront a len fr /\ incl fr front.

Lemma onFrontier_root : onFrontier 0 n.
Proof.
  destruct (c10_frontier n Hn) as (fr & E & F). rewrite Hfront in E. injection E as <-. split; [constructor|]. split; [lia|]. exists front. split; [exact F|apply incl_refl].
Qed.
Lemma onFrontier_in a len : onFrontier a len -> In (sroot a len) front.
Proof. intros (_ & _ & fr & F & I). apply I. inversion F; subst; now left. Qed.
Lemma onFrontier_right a len : onFrontier a len -> sroot a len <> n - 1 ->
  tright (sroot a len) n = Ok (sroot (sroot a len + 1) (len - lsize len - 1)) /\ onFrontier (sroot a len + 1) (len - lsize len - 1).
Proof.
  intros (R & E & fr & F & I) Hx. pose proof (nav_len n a len Hn R) as (L1 & L2 & L3). assert (Hr : lsize len + 1 < len) by (unfold sroot in *; lia).
  split; [apply (nav_right n a len Hn R Hr)|]. split; [constructor; auto|]. split; [unfold sroot in *; lia|].
  inversion F as [a1 len1 EL|a1 len1 rest Hr' F']; subst; [lia|]. exists rest. split; [exact F'|]. intros y Hy. apply I. now right.
Qed.
Lemma last_front : In (n - 1) front.
Proof.
  destruct onFrontier_root as (_ & _ & fr & F & I). apply I. clear I. clear Hfront. assert (G : forall a len fr, SFront a len fr -> 1 <= len -> In (a + len - 1) fr).
  { clear. intros a len fr F. induction F as [a len E|a len rest Hr F IH]; intro L.
    - left. unfold sroot. lia.
    - right. replace (a + len - 1) with (sroot a len + 1 + (len - lsize len - 1) - 1) by (unfold sroot in *; lia). apply IH. lia. }
  specialize (G 0 n fr F ltac:(lia)). rewrite N.add_0_l in G. exact G.
Qed.

(** If the search for the rightmost distinguished entry fails, then the timestamp of an entry on the frontier is missing. *)
Lemma rightmost_loop_cases fuel rm : forall a len d, onFrontier a len ->
  let r := run P (rightmost_loop c fuel n rm (sroot a len)) d in
  match result r with
  | Ok (Some x) => exists a' len', x = sroot a' len' /\ onFrontier a' len'
  | Ok None => False
  | Fail _ => exists y, In y front /\ mget (d_ts (final r)) y = None
  | _ => True
  end.
Proof.
  induction fuel as [|f IH]; intros a len d O; [exact I|]. cbv zeta. cbn [rightmost_loop]. rewrite sub1_64 by auto.
  destruct (N.eqb_spec (sroot a len) (n - 1)) as [E1|E1]; [cbn; eauto|].
  rewrite run_bind, run_getTs_dp. pose proof (dpTs_ext d (sroot a len)) as (_ & _ & _ & E2). destruct (dpTs RH d (sroot a len)) as [[t|e|e|] d1]; cbn [fst snd andThen] in *.
  - destruct (negb _); [cbn; eauto|]. destruct (onFrontier_right a len O E1) as [-> O']. cbn [lift pbind].
    specialize (IH _ _ d1 O'). cbv zeta in IH. destruct (run P (rightmost_loop c f n rm _) d1) as [[r d2] l]. cbn in *. exact IH.
  - cbn. exists (sroot a len). split; [apply onFrontier_in; exact O|exact E2].
  - exact I.
  - exact I.
Qed.

Lemma rightmost_cases d : let r := run P (rightmostDistinguished c n) d in
  match result r with
  | Ok (Some x) => exists a' len', x = sroot a' len' /\ onFrontier a' len'
  | Ok None => True
  | Fail _ => exists y, In y front /\ mget (d_ts (final r)) y = None
  | _ => True
  end.
Proof.
  cbv zeta. unfold rightmostDistinguished. destruct (N.eqb_spec n 0); [lia|]. rewrite sub1_64 by auto.
  rewrite run_bind, run_getTs_dp. pose proof (dpTs_ext d (n - 1)) as (_ & _ & _ & E2). destruct (dpTs RH d (n - 1)) as [[t|e|e|] d1]; cbn [fst snd andThen] in *.
  - destruct (negb _); [cbn; auto|]. destruct (c09_entries n Hn) as (-> & _). pose proof (rightmost_loop_cases 66 t 0 n d1 onFrontier_root) as K. cbv zeta in K.
    destruct (run P (rightmost_loop c 66 n t _) d1) as [[r d2] l]. cbn in *. destruct r as [[x|]| | |]; auto.
  - cbn. exists (n - 1). split; [exact last_front|exact E2].
  - exact I.
  - exact I.
Qed.

(** A search for the greatest version that succeeds has proven that [ver] is in some entry, and that the next version is not in the last one. *)
Definition greatestProven (d : provider) : Prop := ver < 2 ^ 31 - 1 /\ (exists y, y <= n - 1 /\ factD pfs d y ver true) /\ factD pfs d (n - 1) (ver + 1) false.

Lemma greatest_loop_accept fuel : forall a len term d t d' l, onFrontier a len -> incl (r_proofs (d_handle d)) pfs -> tracked pfs d ->
  (forall y vs, In (y, vs) (tr_inc (track d)) -> y < sroot a len /\ forall v, In v vs -> v <= ver) ->
  (forall y vs, In (y, vs) (tr_non (track d)) -> y < sroot a len) ->
  run P (greatest_loop fuel ver n (sroot a len) term) d = (Ok t, d', l) -> greatestProven d'.
Proof.
  induction fuel as [|f IH]; intros a len term d t d' l O Hp Ht Hi Ho E; [discriminate|]. cbn [greatest_loop] in E. rewrite sub1_64 in E by auto.
  apply run_bind_ok in E. destruct E as (r & d1 & l1 & l2 & E & E' & _). rewrite run_getLadder_dp in E.
  assert (Ex : ext d d1). { pose proof (pr_ladder _ _ (preserves_ext d) d (sroot a len) ver true (ext_refl d)) as X. cbn in X. destruct (dpLadder RH d (sroot a len) ver true) as [[z|e|e|] d2]; try discriminate. cbn in E, X. injection E as _ <- _. exact X. }
  destruct (dpLadder RH d (sroot a len) ver true) as [[z|e|e|] d2] eqn:El; try discriminate. cbn [fst snd] in E. injection E as <- <- _.
  destruct (dpLadder_ok pfs d _ ver z d2 Hp Ht El) as (T2 & Z1 & (incs & nons & Tr & Z2 & Z3) & Z4).
  destruct (Z.eqb_spec z 1); [discriminate|].
  destruct (N.eqb_spec (sroot a len) (n - 1)) as [E1|E1]; cbn [negb] in E'.
  - destruct (_ && _); [discriminate|]. destruct (Z.eqb_spec z 0) as [->|]; [|discriminate]. cbn [negb] in E'. cbn [run] in E'. injection E' as _ <- _.
    destruct (Z4 eq_refl) as (base & Eb & Hb). destruct (base_in ver base Hver Eb) as (B0 & B1 & B2). split; [exact B0|]. split.
    + destruct (Hb ver B1) as [F|[(y & vs & I1 & I2 & I3)|(y & vs & I1 & I2 & I3)]].
      * exists (sroot a len). rewrite N.leb_refl in F. split; [lia|exact F].
      * exists y. split; [lia|]. eapply fact_ext; [exact Ex|]. eapply (proj1 Ht); eassumption.
      * apply Ho in I1. lia.
    + rewrite <- E1. destruct (Hb (ver + 1) B2) as [F|[(y & vs & I1 & I2 & I3)|(y & vs & I1 & I2 & I3)]].
      * replace (ver + 1 <=? ver) with false in F by lia. exact F.
      * apply Hi in I1. destruct I1 as [_ I1]. apply I1 in I3. lia.
      * apply Ho in I1. lia.
  - destruct (onFrontier_right a len O E1) as [Er O']. rewrite Er in E'. cbn [lift pbind] in E'.
    assert (Lt : sroot a len < sroot (sroot a len + 1) (len - lsize len - 1)) by (unfold sroot; lia).
    eapply (IH _ _ _ d2); [exact O'| |exact T2| | |exact E'].
    + intros q Hq. apply Hp. apply (x_proofs _ _ Ex). exact Hq.
    + rewrite Tr. cbn [tr_inc]. intros y vs Hy. apply in_app_or in Hy. destruct Hy as [Hy|[Hy|[]]].
      * apply Hi in Hy. split; [lia|apply Hy].
      * injection Hy as <- <-. split; [exact Lt|]. intros v Hv. apply Z2; auto.
    + rewrite Tr. cbn [tr_non]. intros y vs Hy. apply in_app_or in Hy. destruct Hy as [Hy|[Hy|[]]].
      * apply Ho in Hy. lia.
      * injection Hy as <- <-. exact Lt.
Qed.

Lemma greatest_accept d t d' l : incl (r_proofs (d_handle d)) pfs -> track d = tracker0 ->
  run P (greatestVersionSearch c ver n) d = (Ok t, d', l) ->
  greatestProven d' \/ exists y, In y front /\ mget (d_ts d') y = None.
Proof.
  intros Hp Ht E. unfold greatestVersionSearch in E. destruct (N.eqb_spec n 0); [lia|]. apply run_bind_ok in E. destruct E as (r & d1 & l1 & l2 & E & E' & _).
  rewrite run_catch, run_bind in E. pose proof (rightmost_cases d) as K. cbv zeta in K.
  pose proof (run_quiet (rightmostDistinguished c n) (quiet_rightmost c n) d) as [Q1 Q2]. pose proof (run_ext (rightmostDistinguished c n) d) as Q3.
  destruct (run P (rightmostDistinguished c n) d) as [[[o|m|m|] s] evs]; cbn [andThen orElse run result final fst snd] in *; try discriminate.
  - injection E as <- <- _. left.
    assert (exists a len, match o with Some x => x | None => troot n end = sroot a len /\ onFrontier a len) as (a & len & Ea & O).
    { destruct o as [x|]; [destruct K as (a & len & -> & O); eauto|]. destruct (c09_entries n Hn) as (-> & _). exists 0, n. split; [reflexivity|apply onFrontier_root]. }
    rewrite Ea in E'. eapply greatest_loop_accept; [exact O| | | | |exact E'].
    + intros q Hq. apply Hp. apply (x_proofs _ _ Q3). exact Hq.
    + split; rewrite Q1, Ht; cbn; contradiction.
    + rewrite Q1, Ht. cbn. contradiction.
    + rewrite Q1, Ht. cbn. contradiction.
  - injection E as <- <- _. cbn [run] in E'. injection E' as _ <- _. right. exact K.
Qed.

Lemma fixed_finish_accept term b dist d t d' l : incl (r_proofs (d_handle d)) pfs ->
  run P (fixed_finish ver term b dist) d = (Ok t, d', l) -> exists y, factD pfs d' y ver true.
Proof.
  intros Hp E. unfold fixed_finish in E. destruct term as [x|]; [|discriminate]. destruct (_ && _); [discriminate|].
  apply run_bind_ok in E. destruct E as (r & d1 & l1 & l2 & E & E' & _). cbn [run] in E'. injection E' as _ <- _.
  cbn [getIncl run pIncl dpProvider] in E. destruct (dpIncl RH d x [ver]) as [[[]|m|m|] s] eqn:Ei; try discriminate. cbn in E. injection E as _ <- _.
  exists x. eapply dpIncl_ok; eassumption.
Qed.

Lemma fixed_loop_accept fuel rm : forall a len term exp lf rt dist d t d' l, SRange n a len -> incl (r_proofs (d_handle d)) pfs -> tracked pfs d ->
  (forall y vs, In (y, vs) (tr_non (track d)) -> y < a \/ a + len <= y /\ forall v, In v vs -> ver < v) ->
  run P (fixed_loop c fuel ver n rm (sroot a len) term exp lf rt dist) d = (Ok t, d', l) -> exists y, factD pfs d' y ver true.
Proof.
  induction fuel as [|f IH]; intros a len term exp lf rt dist d t d' l R Hp Ht Ho E; [discriminate|]. cbn [fixed_loop] in E.
  pose proof (nav_len n a len Hn R) as (L1 & L2 & L3).
  assert (HR : forall d1 tm e lf' rt' ds t d' l, incl (r_proofs (d_handle d1)) pfs -> tracked pfs d1 ->
            (forall y vs, In (y, vs) (tr_non (track d1)) -> y < sroot a len + 1 \/ a + len <= y /\ forall v, In v vs -> ver < v) ->
            noRightChild (sroot a len) n = false ->
            run P (do* x' := lift (tright (sroot a len) n) in fixed_loop c f ver n rm x' tm e lf' rt' ds) d1 = (Ok t, d', l) -> exists y, factD pfs d' y ver true).
  { intros d1 tm e lf' rt' ds t1 d1' l1 Hp1 Ht1 Ho1 Nr E1. rewrite (nav_noRight n a len Hn R) in Nr. apply N.eqb_neq in Nr. assert (Hr : lsize len + 1 < len) by lia.
    rewrite (nav_right n a len Hn R Hr) in E1. cbn [lift pbind] in E1. eapply IH; [|exact Hp1|exact Ht1| |exact E1]; [constructor; auto|].
    intros y vs Hy. destruct (Ho1 y vs Hy) as [|[A B]]; [auto|]. right. split; [unfold sroot; lia|exact B]. }
  apply run_bind_ok in E. destruct E as (ts & d1 & l1 & l2 & E & E' & _). rewrite run_getTs_dp in E. pose proof (dpTs_ext d (sroot a len)) as (X1 & X2 & _ & _).
  destruct (dpTs RH d (sroot a len)) as [[t1|e1|e1|] s]; try discriminate. cbn [fst snd] in *. injection E as <- <- _.
  assert (Hp1 : incl (r_proofs (d_handle s)) pfs). { intros q Hq. apply Hp. apply (x_proofs _ _ X1). exact Hq. }
  assert (Ht1 : tracked pfs s) by (eapply tracked_ext; eassumption).
  assert (Ho1 : forall y vs, In (y, vs) (tr_non (track s)) -> y < a \/ a + len <= y /\ forall v, In v vs -> ver < v) by (rewrite X2; exact Ho).
  match type of E' with context[if isExpired ?a ?b ?c0 then _ else _] => destruct (isExpired a b c0) end.
  - destruct (noRightChild (sroot a len) n) eqn:Nr; [eapply fixed_finish_accept; eassumption|]. eapply HR; [exact Hp1|exact Ht1| |reflexivity|exact E'].
    intros y vs Hy. destruct (Ho1 y vs Hy) as [|B]; [left; unfold sroot; lia|auto].
  - cbv zeta in E'. apply run_bind_ok in E'. destruct E' as (r & d2 & l3 & l4 & E & E' & _). rewrite run_getLadder_dp in E.
    assert (Ex : ext s d2). { pose proof (pr_ladder _ _ (preserves_ext s) s (sroot a len) ver true (ext_refl s)) as X. cbn in X. destruct (dpLadder RH s (sroot a len) ver true) as [[z|e|e|] s2]; try discriminate. cbn in E, X. injection E as _ <- _. exact X. }
    destruct (dpLadder RH s (sroot a len) ver true) as [[z|e|e|] s2] eqn:El; try discriminate. cbn [fst snd] in E. injection E as <- <- _.
    destruct (dpLadder_ok pfs s _ ver z s2 Hp1 Ht1 El) as (T2 & Z1 & (incs & nons & Tr & Z2 & Z3) & Z4).
    assert (Hp2 : incl (r_proofs (d_handle s2)) pfs). { intros q Hq. apply Hp1. apply (x_proofs _ _ Ex). exact Hq. }
    destruct (Z.eqb_spec z (-1)) as [->|Nz]; [|destruct (Z.eqb_spec z 1) as [->|Nz1]].
    + destruct (noRightChild (sroot a len) n) eqn:Nr; [eapply fixed_finish_accept; eassumption|]. eapply HR; [exact Hp2|exact T2| |reflexivity|exact E'].
      rewrite Tr. cbn [tr_non]. intros y vs Hy. apply in_app_or in Hy. destruct Hy as [Hy|[Hy|[]]].
      * destruct (Ho1 y vs Hy) as [|B]; [left; unfold sroot; lia|auto].
      * injection Hy as <- <-. left. lia.
    + destruct (noLeftChild (sroot a len)) eqn:Nl; [eapply fixed_finish_accept; eassumption|]. rewrite (nav_noLeft n a len Hn R) in Nl. apply N.eqb_neq in Nl.
      rewrite (nav_left n a len Hn R ltac:(lia)) in E'. cbn [lift pbind] in E'. eapply IH; [|exact Hp2|exact T2| |exact E']; [constructor; auto; lia|].
      rewrite Tr. cbn [tr_non]. intros y vs Hy. apply in_app_or in Hy. destruct Hy as [Hy|[Hy|[]]].
      * destruct (Ho1 y vs Hy) as [|[A B]]; [auto|]. right. split; [lia|exact B].
      * injection Hy as <- <-. right. split; [unfold sroot; lia|]. apply Z3. discriminate.
    + assert (z = 0)%Z as -> by lia. destruct (Z4 eq_refl) as (base & Eb & Hb). destruct (base_in ver base Hver Eb) as (B0 & B1 & B2).
      assert (G : exists y, factD pfs s2 y ver true).
      { destruct (Hb ver B1) as [F|[(y & vs & I1 & I2 & I3)|(y & vs & I1 & I2 & I3)]].
        - exists (sroot a len). rewrite N.leb_refl in F. exact F.
        - exists y. eapply fact_ext; [exact Ex|]. eapply (proj1 Ht1); eassumption.
        - destruct (Ho1 y vs I1) as [A|[A B]]; [unfold sroot in *; lia|]. apply B in I3. lia. }
      destruct (negb exp); [cbn [run] in E'; injection E' as _ <- _; exact G|]. destruct (existsb _ _); [|discriminate]. cbn [run] in E'. injection E' as _ <- _. exact G.
Qed.

Lemma fixed_accept d t d' l : incl (r_proofs (d_handle d)) pfs -> track d = tracker0 ->
  run P (fixedVersionSearch c ver n) d = (Ok t, d', l) -> exists y, factD pfs d' y ver true.
Proof.
  intros Hp Ht E. unfold fixedVersionSearch in E. destruct (N.eqb_spec n 0); [lia|]. apply run_bind_ok in E. destruct E as (ts & d1 & l1 & l2 & E & E' & _).
  rewrite run_getTs_dp in E. pose proof (dpTs_ext d (sub64 n 1)) as (X1 & X2 & _ & _).
  destruct (dpTs RH d (sub64 n 1)) as [[t1|e1|e1|] s]; try discriminate. cbn [fst snd] in *. injection E as <- <- _.
  destruct (c09_entries n Hn) as (Er & _). rewrite Er in E'. eapply fixed_loop_accept; [constructor| | | |exact E'].
  - intros q Hq. apply Hp. apply (x_proofs _ _ X1). exact Hq.
  - split; rewrite X2, Ht; cbn; contradiction.
  - rewrite X2, Ht. cbn. contradiction.
Qed.
End Searches.
End Client.
