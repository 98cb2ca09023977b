(** A client that reports that a version does not exist was shown that it is missing from the prefix tree of the last log entry. *)
From Verif Require Import Base BaseProofs LogMathModel LogMathSpec TransMathModel TransMathSpec TransMathProofs TransMathProofs2 LaddersModel LaddersProofs PrefixModel
  CodecModel AlgModel AlgSpec AlgProofs AlgProofs2 AlgProofs3 HandleModel HandleProofs HandleProofs8 ClientModel ClientProofs2 AcceptProofs AbsentProofs2.
Open Scope N_scope.
Local Open Scope list_scope.

Lemma interpret_minus ver : forall ladder results, interpret_loop ladder ver results = Ok (-1)%Z ->
  exists i w, nth_error ladder i = Some w /\ nth_error results i = Some false /\ w <= ver.
Proof.
  induction ladder as [|w ladder IH]; intros results E; [discriminate|]. destruct results as [|r results]; [discriminate|]. cbn [interpret_loop] in E.
  destruct (r && (ver <? w)); [destruct results; discriminate|]. destruct (negb r && (w <=? ver)) eqn:E2.
  - apply andb_true_iff in E2. destruct E2 as [E2 E3]. exists 0%nat, w. destruct r; [discriminate|]. apply N.leb_le in E3. auto.
  - destruct (IH _ E) as (i & w' & A & B & C). exists (S i), w'. auto.
Qed.

(** The versions up to [ver] in its ladder *)
Definition low (ver w : N) : Prop := w <= ver /\ forall ladder, searchBinaryLadder ver ver [] [] = Ok ladder -> In w ladder.

Lemma search_low ver li rn ladder w : searchBinaryLadder ver ver li rn = Ok ladder -> In w ladder -> w <= ver -> low ver w.
Proof.
  intros E I L. split; [exact L|]. intros ladder' E'. unfold searchBinaryLadder in E, E'. destruct (baseBinaryLadder ver) as [base| | |]; try discriminate. cbn [bind] in E, E'. injection E as <-. injection E' as <-.
  assert (K : forall v, ((v <=? ver) && (ver <? v)) || ((ver <? v) && (v <=? ver)) = false) by (intro; lia).
  revert I. induction base as [|v base IH]; [auto|]. cbn [searchLadder_loop]. rewrite K. cbn [mem32 existsb orb]. destruct (_ || _); cbn [In]; intuition.
Qed.

(** ** Errors *)

Ltac errs := repeat first
  [ discriminate | apply bind_error; [|intros ?]
  | match goal with
    | |- (if ?b then _ else _) <> _ => destruct b
    | |- (match ?x with _ => _ end) <> _ => destruct x
    | |- (let (_, _) := ?x in _) <> _ => destruct x
    end ].

Section Errors.
Variable H : bytes -> option bytes.
Variable hs : N.
Local Notation RH := (receivedHandle H hs).
Local Notation no r := (r <> Fail ErrLabelNotFound).

Lemma addToSkeleton_error fuel : forall n e r d, no (addToSkeleton fuel n e r d).
Proof.
  induction fuel as [|f IH]; intros n e r d; [discriminate|]. cbn [addToSkeleton]. cbv zeta.
  assert (P : forall l rt h id, no (let* b := getBit (fst e) d in if b then let* rt' := addToSkeleton f rt e r (S d) in Ok (Parent l rt' h id) else let* l' := addToSkeleton f l e r (S d) in Ok (Parent l' rt h id))).
  { intros. apply bind_error; [unfold getBit; errs|]. intros [|]; (apply bind_error; [apply IH|]; discriminate). }
  destruct n; try apply P.
  - destruct (_ || _); discriminate.
  - destruct (_ || _); discriminate.
  - destruct (Nat.ltb _ _); [discriminate|]. destruct (Nat.eqb _ _); [discriminate|apply P].
Qed.
Lemma foldM_error {A B} (k : B -> A -> res B) (Hk : forall b a, no (k b a)) l : forall b, no (foldM k l b).
Proof. induction l as [|a l IH]; intro b; [discriminate|]. cbn. apply bind_error; [apply Hk|intro; apply IH]. Qed.
Lemma fillInCopath_error n : forall es, no (fillInCopath n es).
Proof.
  induction n; intro es; cbn [fillInCopath]; try discriminate; [|destruct es; discriminate].
  apply bind_error; [apply IHn1|]. intros []. apply bind_error; [apply IHn2|]. intros []. discriminate.
Qed.
Lemma nodeHash_error n : no (nodeHash H (N.to_nat hs) n).
Proof.
  induction n; cbn [nodeHash]; try discriminate; try apply hash_error. destruct h; [discriminate|].
  apply bind_error; [assumption|intro]. apply bind_error; [assumption|intro]. apply hash_error.
Qed.
Lemma Evaluate_error es p : no (Evaluate H (N.to_nat hs) es p).
Proof.
  unfold Evaluate. apply bind_error; [|intro; apply nodeHash_error]. unfold evaluate. cbv zeta. repeat (match goal with |- (if ?b then _ else _) <> _ => destruct b end; [discriminate|]).
  apply bind_error; [apply foldM_error; intros; apply addToSkeleton_error|]. intro. apply bind_error; [apply fillInCopath_error|]. intros [? []]; discriminate.
Qed.
Lemma lookup_error vm : forall vers incl, no (lookupEntries vm vers incl).
Proof. induction vers as [|v vers IH]; intros [|i incl]; cbn [lookupEntries]; try discriminate. destruct (mget vm v) as [[? o]|]; [|discriminate]. destruct (_ && _); [discriminate|]. apply bind_error; [apply IH|discriminate]. Qed.
Lemma base_error v : no (baseBinaryLadder v).
Proof.
  assert (U : forall fuel n len, no (ladder_up fuel n len)).
  { induction fuel as [|f IH]; intros n len; [discriminate|]. cbn [ladder_up]. cbv zeta. destruct (_ <? _); [discriminate|]. apply bind_error; [apply IH|discriminate]. }
  assert (D : forall fuel n lo hi, no (ladder_bisect fuel n lo hi)).
  { induction fuel as [|f IH]; intros n lo hi; [discriminate|]. cbn [ladder_bisect]. cbv zeta. destruct (_ <? _); [|discriminate]. apply bind_error; [destruct (_ <=? _); apply IH|discriminate]. }
  unfold baseBinaryLadder, baseBinaryLadder_fuel. apply bind_error; [apply U|]. intro up. destruct (rev up) as [|hi [|lo ?]]; try discriminate. apply bind_error; [apply D|discriminate].
Qed.
Lemma interpret_error ver : forall ladder rs, no (interpret_loop ladder ver rs).
Proof.
  induction ladder as [|w ladder IH]; intros [|r rs]; cbn [interpret_loop]; try discriminate. destruct (_ && _); [destruct rs; discriminate|]. destruct (_ && _); [destruct rs; discriminate|apply IH].
Qed.
Lemma rLadder_error r x v o : no (fst (rLadder H hs r x v o)).
Proof.
  unfold rLadder, keeping. match goal with |- fst (match ?a with _ => _ end) <> _ => assert (K : no a); [|destruct a as [[? ?]|e|e|]; cbn; try discriminate; intro Q; apply K; exact (f_equal (fun r => match r with Fail e => Fail e | _ => Fuel end) Q)] end.
  destruct (r_proofs r) as [|pf rest]; [discriminate|]. destruct (searchMaps _ _ _). apply bind_error.
  { unfold searchBinaryLadder. apply bind_error; [apply base_error|discriminate]. }
  intro. apply bind_error; [unfold interpretSearchLadder; destruct (_ <? _)%nat; [discriminate|apply interpret_error]|]. intro.
  apply bind_error; [apply lookup_error|]. intro. apply bind_error; [apply Evaluate_error|discriminate].
Qed.
Lemma rIncl_error r x v : no (fst (rIncl H hs r x v)).
Proof.
  unfold rIncl, keeping. match goal with |- fst (match ?a with _ => _ end) <> _ => assert (K : no a); [|destruct a as [[? ?]|e|e|]; cbn; try discriminate; intro Q; apply K; exact (f_equal (fun r => match r with Fail e => Fail e | _ => Fuel end) Q)] end.
  destruct (r_proofs r) as [|pf rest]; [discriminate|]. destruct (negb _); [discriminate|]. destruct (negb _); [discriminate|].
  apply bind_error; [apply lookup_error|]. intro. apply bind_error; [apply Evaluate_error|discriminate].
Qed.
Lemma dpTs_error d x : no (fst (dpTs RH d x)).
Proof.
  unfold dpTs. destruct (mget _ _); [discriminate|]. cbn [receivedHandle hTs]. unfold rTs. destruct (r_ts _); [discriminate|].
  match goal with |- context[addTimestamp ?a ?b ?c] => assert (K : no (addTimestamp a b c)) by (unfold addTimestamp; errs); destruct (addTimestamp a b c); cbn; congruence end.
Qed.
Lemma dpRoot_error {A} (d : dataProvider received) x (r : res (bytes * A)) h : no r -> no (fst (dpRoot d x r h)).
Proof.
  intro K. unfold dpRoot. destruct r as [[root a]|e|e|]; try discriminate.
  - match goal with |- context[addPrefixTree ?a ?b ?c] => assert (K2 : no (addPrefixTree a b c)) by (unfold addPrefixTree; errs); destruct (addPrefixTree a b c); cbn; congruence end.
  - cbn. congruence.
Qed.
Lemma dpLadder_error d x v o : no (fst (dpLadder RH d x v o)).
Proof.
  unfold dpLadder. pose proof (dpTs_error d x) as K. destruct (dpTs RH d x) as [[t|e|e|] d1]; try discriminate; [|cbn in *; congruence].
  pose proof (rLadder_error (d_handle d1) x v o) as K2. cbn [receivedHandle hLadder]. destruct (rLadder H hs (d_handle d1) x v o) as [r h]. apply dpRoot_error. exact K2.
Qed.
Lemma dpIncl_error d x v : no (fst (dpIncl RH d x v)).
Proof.
  unfold dpIncl. destruct v as [|v0 vt]; [discriminate|]. pose proof (dpTs_error d x) as K. destruct (dpTs RH d x) as [[t|e|e|] d1]; try discriminate; [|cbn in *; congruence].
  pose proof (rIncl_error (d_handle d1) x (v0 :: vt)) as K2. cbn [receivedHandle hIncl]. destruct (rIncl H hs (d_handle d1) x (v0 :: vt)) as [r h]. apply dpRoot_error. unfold noResult. destruct r; cbn in *; try discriminate. congruence.
Qed.

(** ** Programs that do not report it themselves *)

Fixpoint clean {A} (p : prog A) : Prop :=
  match p with
  | Ret _ | Crash _ | Diverge => True
  | Err m => m <> ErrLabelNotFound
  | GetTs x k e => (forall a, clean (k a)) /\ (forall m, m <> ErrLabelNotFound -> clean (e m))
  | GetLadder x v o k e => (forall a, clean (k a)) /\ (forall m, m <> ErrLabelNotFound -> clean (e m))
  | GetMonitoring x v k e => False
  | GetIncl x v k e => clean k /\ (forall m, m <> ErrLabelNotFound -> clean (e m))
  | StopCond x v k => forall b, clean (k b)
  | TrackLadder x o g l k => clean k
  end.
Lemma clean_bind {A B} (p : prog A) (k : A -> prog B) : clean p -> (forall a, clean (k a)) -> clean (pbind p k).
Proof. intros Hp Hk. induction p; cbn [clean pbind] in *; intuition. Qed.
Lemma clean_lift {A} (r : res A) : no r -> clean (lift r).
Proof. destruct r; cbn; intro K; auto. intros ->. now apply K. Qed.
Lemma clean_getTs x : clean (getTs x).
Proof. cbn. auto. Qed.
Lemma clean_getLadder x v o : clean (getLadder x v o).
Proof. cbn. auto. Qed.
Lemma clean_getIncl x v : clean (getIncl x v).
Proof. cbn. auto. Qed.
Lemma result_addEv {A S} e (x : res A * S * list event) : result (addEv e x) = result x.
Proof. destruct x as [[? ?] ?]. reflexivity. Qed.
Lemma run_clean {A} (p : prog A) : clean p -> forall d, no (result (run (dpProvider RH) p d)).
Proof.
  induction p as [a|m|m| |x k IH e IHe|x v o k IH e IHe|x v k IH e IHe|x v k IH e IHe|x v k IH|x o g l k IH]; cbn [clean]; intros C d; cbn [run].
  - discriminate.
  - cbn. congruence.
  - discriminate.
  - discriminate.
  - cbn [pTs dpProvider]. pose proof (dpTs_error d x) as K. destruct (dpTs RH d x) as [[t|m|m|] d1]; rewrite result_addEv; try discriminate; [apply IH, C|]. apply IHe, C. cbn in K. congruence.
  - cbn [pLadder dpProvider]. pose proof (dpLadder_error d x v o) as K. destruct (dpLadder RH d x v o) as [[t|m|m|] d1]; rewrite result_addEv; try discriminate; [apply IH, C|]. apply IHe, C. cbn in K. congruence.
  - contradiction.
  - cbn [pIncl dpProvider]. pose proof (dpIncl_error d x v) as K. destruct (dpIncl RH d x v) as [[t|m|m|] d1]; rewrite result_addEv; try discriminate; [apply IH, C|]. apply IHe, C. cbn in K. congruence.
  - rewrite result_addEv. apply IH, C.
  - cbn. rewrite ?result_addEv. apply IH, C.
Qed.

Variable c : pubConfig.

Lemma tleft_error x : no (tleft x).
Proof. unfold tleft, left. cbv zeta. destruct (_ =? _); discriminate. Qed.
Lemma tright_error x n : no (tright x n).
Proof.
  unfold tright, rightW. apply bind_error; [unfold rightStep; cbv zeta; destruct (_ =? _); discriminate|]. generalize 66%nat. intros fuel r. revert r.
  induction fuel as [|f IH]; intro r; cbn [right_loop]; [discriminate|]. destruct (_ <=? _); [|discriminate]. apply bind_error; [apply tleft_error|exact IH].
Qed.
Lemma tparent_error x n : no (tparent x n).
Proof.
  unfold tparent, parentW. destruct (_ =? _); [discriminate|]. generalize 66%nat. intro fuel. generalize (parentStep x). induction fuel as [|f IH]; intro r; cbn [parent_loop]; [discriminate|]. destruct (_ <=? _); [apply IH|discriminate].
Qed.
Lemma descend_error fuel n : forall x, no (descend_loop fuel x n).
Proof. induction fuel as [|f IH]; intro x; cbn [descend_loop]; [discriminate|]. destruct (_ =? _); [discriminate|]. apply bind_error; [apply tright_error|]. intro. apply bind_error; [apply IH|discriminate]. Qed.
Lemma path_error n m : no (updateViewPath n m).
Proof.
  assert (F : no (frontier n)) by (unfold frontier; cbv zeta; apply bind_error; [apply descend_error|discriminate]).
  unfold updateViewPath. destruct m as [m0|]; [|exact F]. destruct (m0 =? n); [discriminate|]. destruct (m0 =? 0); [exact F|]. apply bind_error.
  - unfold rightDirectPath. generalize 66%nat. intro fuel. generalize (sub64 m0 1) at 1. induction fuel as [|f IH]; intro y; cbn [rightDirectPath_loop]; [discriminate|]. destruct (_ =? _); [discriminate|]. apply bind_error; [apply tparent_error|]. intro. apply bind_error; [apply IH|discriminate].
  - intros [|? ?]; [discriminate|]. apply bind_error; [apply descend_error|discriminate].
Qed.
Lemma getAllTs_clean xs : clean (getAllTs xs).
Proof. induction xs; cbn [getAllTs]; [exact I|]. apply clean_bind; [apply clean_getTs|]. intro. assumption. Qed.
Lemma view_clean now n m : clean (updateView c now n m).
Proof.
  unfold updateView. destruct (match m with Some m0 => n <? m0 | None => false end); [discriminate|]. destruct (n =? 0); [exact I|].
  apply clean_bind; [apply clean_lift, path_error|]. intro. apply clean_bind; [apply getAllTs_clean|]. intro. apply clean_bind; [apply clean_getTs|]. intro.
  destruct (_ && _); [discriminate|]. destruct (_ && _); [discriminate|exact I].
Qed.
Lemma finish_clean ver t b dist : clean (fixed_finish ver (Some t) b dist).
Proof. unfold fixed_finish. destruct (_ && _); [discriminate|]. apply clean_bind; [apply clean_getIncl|]. intro. exact I. Qed.
Lemma fixed_clean fuel : forall ver n rm x t exp lf rt dist, clean (fixed_loop c fuel ver n rm x (Some t) exp lf rt dist).
Proof.
  induction fuel as [|f IH]; intros; [exact I|]. cbn [fixed_loop]. apply clean_bind; [apply clean_getTs|]. intro ts.
  assert (R : forall t e lf' rt' ds, clean (do* x' := lift (tright x n) in fixed_loop c f ver n rm x' (Some t) e lf' rt' ds)) by (intros; apply clean_bind; [apply clean_lift, tright_error|intro; apply IH]).
  assert (L : forall t e lf' rt' ds, clean (do* x' := lift (tleft x) in fixed_loop c f ver n rm x' (Some t) e lf' rt' ds)) by (intros; apply clean_bind; [apply clean_lift, tleft_error|intro; apply IH]).
  destruct (isExpired _ _ _).
  - destruct (noRightChild x n); [apply finish_clean|apply R].
  - cbv zeta. apply clean_bind; [apply clean_getLadder|]. intro r. destruct (if (0 <=? r)%Z && (x <? t) then Some x else Some t) as [t'|] eqn:Et; [|destruct ((0 <=? r)%Z && (x <? t)); discriminate].
    destruct (r =? -1)%Z; [destruct (noRightChild x n); [apply finish_clean|apply R]|]. destruct (r =? 1)%Z; [destruct (noLeftChild x); [apply finish_clean|apply L]|].
    destruct (negb exp); [exact I|]. destruct (existsb _ _); [exact I|discriminate].
Qed.
End Errors.

(** ** Searches that report it *)
Section Searches.
Variable H : bytes -> option bytes.
Variable hs : N.
Local Notation RH := (receivedHandle H hs).
Local Notation P := (dpProvider RH).
Variable c : pubConfig.
Variable n : N.
Hypothesis Hn : 1 <= n < 2 ^ 64.
Variable pfs : list pproof.
Variable ver : N.

Lemma dpLadder_minus d x o d' : incl (r_proofs (d_handle d)) pfs -> dpLadder RH d x ver o = (Ok (-1)%Z, d') -> exists w, low ver w /\ factD H hs pfs d' x w false.
Proof.
  intros Hp E. unfold dpLadder in E. pose proof (dpTs_ext H hs d x) as (E1 & T1 & R1 & E2).
  destruct (dpTs RH d x) as [[t|e|e|] d1]; cbn [fst snd] in *; try discriminate.
  cbn [receivedHandle hLadder] in E. destruct (rLadder H hs (d_handle d1) x ver o) as [r h] eqn:El. pose proof (rLadder_ext H hs (d_handle d1) x ver o) as AB. rewrite El in AB.
  pose proof (dpRoot_ext d1 x r h ltac:(rewrite E2; discriminate) AB) as E3. unfold dpRoot in E, E3.
  destruct r as [[root z']|e|e|]; try discriminate. destruct (addPrefixTree (d_roots (withHandle d1 h)) x root) as [m| | |] eqn:Em; try discriminate.
  injection E as -> <-. cbn [snd] in E3.
  assert (Hroot : mget m x = Some root).
  { unfold addPrefixTree in Em. destruct (mget (d_roots (withHandle d1 h)) x) as [old|] eqn:Eo.
    - destruct (bytes_eqb root old) eqn:Eq; [|discriminate]. apply bytes_eqb_eq in Eq. subst old. injection Em as <-. exact Eo.
    - injection Em as <-. rewrite mget_mput, N.eqb_refl. reflexivity. }
  unfold rLadder in El. unfold keeping in El.
  destruct (r_proofs (d_handle d1)) as [|pf rest] eqn:Epf; [discriminate|].
  assert (Hpf : In pf pfs). { apply Hp. apply (x_proofs _ _ E1). rewrite Epf. now left. }
  destruct (searchMaps _ _ _) as [li rn]. destruct (searchBinaryLadder ver ver li rn) as [ladder| | |] eqn:Es; try discriminate. cbn [bind] in El.
  destruct (interpretSearchLadder ladder ver (map rincl (p_results pf))) as [z0| | |] eqn:Ei; try discriminate. cbn [bind] in El.
  destruct (lookupEntries (r_versions (d_handle d1)) ladder (map rincl (p_results pf))) as [es| | |] eqn:Elk; try discriminate. cbn [bind] in El.
  destruct (Evaluate H (N.to_nat hs) es pf) as [root'| | |] eqn:Ev; try discriminate. cbn [bind] in El. injection El as -> -> <-.
  set (d2 := withRoots _ m) in *.
  assert (Hvm : vers d2 = vers d1) by (rewrite (x_vers _ _ E3); reflexivity).
  unfold interpretSearchLadder in Ei. destruct (List.length ladder <? List.length (map rincl (p_results pf)))%nat; [discriminate|].
  destruct (interpret_minus _ _ _ Ei) as (i & w & Hv & Hb & Hw). exists w. split; [eapply search_low; [exact Es|eapply nth_error_In; exact Hv|exact Hw]|].
  destruct (lookup_spec _ _ _ _ Elk i w false Hv Hb) as (key & k & K1 & K2 & K3).
  rewrite nth_error_map in Hb. destruct (nth_error (p_results pf) i) as [r0|] eqn:Er; [|discriminate]. injection Hb as Hb.
  exists root, es, pf, i, key, k, r0. split; [exact Hroot|]. split; [exact Hpf|]. split; [exact Ev|]. split; [rewrite Hvm; exact (lookup_known _ _ _ _ Elk)|].
  split; [rewrite Hvm; exact K1|]. auto.
Qed.

Lemma run_ladder_ext d x o : ext d (snd (dpLadder RH d x ver o)).
Proof. exact (pr_ladder _ _ (preserves_ext H hs d) d x ver o (ext_refl d)). Qed.

Lemma fixed_loop_absent fuel rm : forall a len exp lf rt dist d d' l, SRange n a len -> a + len = n -> incl (r_proofs (d_handle d)) pfs -> mget (d_ts d) (n - 1) = Some rm ->
  run P (fixed_loop c fuel ver n rm (sroot a len) None exp lf rt dist) d = (Fail ErrLabelNotFound, d', l) -> exists w, low ver w /\ factD H hs pfs d' (n - 1) w false.
Proof.
  induction fuel as [|f IH]; intros a len exp lf rt dist d d' l R Hl Hp Ht E; [discriminate|]. cbn [fixed_loop] in E.
  pose proof (nav_len n a len Hn R) as (L1 & L2 & L3). set (x := sroot a len) in *.
  assert (HR : forall d1 e lf' rt' ds d' l, incl (r_proofs (d_handle d1)) pfs -> mget (d_ts d1) (n - 1) = Some rm ->
            noRightChild x n = false ->
            run P (do* x' := lift (tright x n) in fixed_loop c f ver n rm x' None e lf' rt' ds) d1 = (Fail ErrLabelNotFound, d', l) -> exists w, low ver w /\ factD H hs pfs d' (n - 1) w false).
  { intros d1 e lf' rt' ds d1' l1 Hp1 Ht1 Nr E1. unfold x in Nr, E1. rewrite (nav_noRight n a len Hn R) in Nr. apply N.eqb_neq in Nr. assert (Hr : lsize len + 1 < len) by lia.
    rewrite (nav_right n a len Hn R Hr) in E1. cbn [lift pbind] in E1. eapply IH; [| |exact Hp1|exact Ht1|exact E1]; [constructor; auto|unfold sroot; lia]. }
  assert (HN : noRightChild x n = true -> x = n - 1).
  { unfold x. rewrite (nav_noRight n a len Hn R). intro Q. apply N.eqb_eq in Q. unfold sroot. lia. }
  rewrite run_bind, run_getTs_dp in E. pose proof (dpTs_ext H hs d x) as (X1 & X2 & _ & _). pose proof (dpTs_error H hs d x) as NE.
  assert (Ex : x = n - 1 -> fst (dpTs RH d x) = Ok rm) by (intros ->; unfold dpTs; now rewrite Ht).
  destruct (dpTs RH d x) as [[t1|e1|e1|] s]; cbn [fst snd] in *; try discriminate.
  2:{ cbn in E. congruence. }
  assert (Hp1 : incl (r_proofs (d_handle s)) pfs). { intros q Hq. apply Hp. apply (x_proofs _ _ X1). exact Hq. }
  assert (Ht1 : mget (d_ts s) (n - 1) = Some rm) by (apply (x_ts _ _ X1); exact Ht).
  cbn [andThen] in E.
  match type of E with context[run P ?p s] => destruct (run P p s) as [[r1 s1] evs1] eqn:E' end. injection E as -> -> _.
  destruct (isExpired (pc_maxLife c) t1 rm) eqn:Exp.
  - destruct (noRightChild x n) eqn:Nr; [|eapply HR; eauto]. exfalso. specialize (Ex (HN eq_refl)). injection Ex as ->.
    unfold isExpired in Exp. destruct (N.eqb_spec (pc_maxLife c) 0); [discriminate|]. replace (sub64 rm rm) with 0 in Exp by (unfold sub64; replace (rm + two64 - rm) with two64 by lia; reflexivity). lia.
  - cbv zeta in E'. rewrite run_bind, run_getLadder_dp in E'. pose proof (run_ladder_ext s x true) as X3. pose proof (dpLadder_error H hs s x ver true) as NE2.
    destruct (dpLadder RH s x ver true) as [[z|e|e|] s2] eqn:El; cbn [fst snd] in *; try discriminate.
    2:{ cbn in E'. congruence. }
    cbn [andThen] in E'. match type of E' with context[run P ?p s2] => destruct (run P p s2) as [[r2 s3] evs2] eqn:E2 end. injection E' as -> -> _.
    rewrite andb_true_r in E2.
    assert (Hp2 : incl (r_proofs (d_handle s2)) pfs). { intros q Hq. apply Hp1. apply (x_proofs _ _ X3). exact Hq. }
    assert (Ht2 : mget (d_ts s2) (n - 1) = Some rm) by (apply (x_ts _ _ X3); exact Ht1).
    destruct (Z.eqb_spec z (-1)) as [->|Nz].
    + cbn [Z.leb Z.compare] in E2. destruct (noRightChild x n) eqn:Nr; [|eapply HR; eauto]. cbn in E2. injection E2 as <- _. rewrite <- (HN eq_refl). exact (dpLadder_minus s x true s2 Hp1 El).
    + exfalso. assert (C : forall p : prog N, clean p -> run P p s2 = (Fail ErrLabelNotFound, d', evs2) -> False).
      { intros p Cp Ep. pose proof (run_clean H hs p Cp s2) as K. rewrite Ep in K. now apply K. }
      destruct (Z.leb_spec 0 z).
      * destruct (z =? 1)%Z.
        -- destruct (noLeftChild x); [eapply C; [|exact E2]; apply finish_clean|]. eapply C; [|exact E2]. apply clean_bind; [apply clean_lift, tleft_error|]. intro. apply fixed_clean.
        -- destruct (negb exp); [discriminate|]. destruct (existsb _ _); [discriminate|]. cbn in E2. discriminate.
      * destruct (Z.eqb_spec z 1); [lia|]. destruct (negb exp); [discriminate|]. destruct (existsb _ _); [discriminate|]. cbn in E2. discriminate.
Qed.

Lemma greatest_loop_absent fuel : forall a len term d d' l, SRange n a len -> a + len = n -> incl (r_proofs (d_handle d)) pfs ->
  run P (greatest_loop fuel ver n (sroot a len) term) d = (Fail ErrLabelNotFound, d', l) -> exists w, low ver w /\ factD H hs pfs d' (n - 1) w false.
Proof.
  induction fuel as [|f IH]; intros a len term d d' l R Hl Hp E; [discriminate|]. cbn [greatest_loop] in E.
  pose proof (nav_len n a len Hn R) as (L1 & L2 & L3). set (x := sroot a len) in *.
  rewrite run_bind, run_getLadder_dp in E. pose proof (run_ladder_ext d x true) as X3. pose proof (dpLadder_error H hs d x ver true) as NE2.
  destruct (dpLadder RH d x ver true) as [[z|e|e|] s2] eqn:El; cbn [fst snd] in *; try discriminate.
  2:{ cbn in E. congruence. }
  cbn [andThen] in E. match type of E with context[run P ?p s2] => destruct (run P p s2) as [[r2 s3] evs2] eqn:E2 end. injection E as -> -> _.
  assert (Hp2 : incl (r_proofs (d_handle s2)) pfs). { intros q Hq. apply Hp. apply (x_proofs _ _ X3). exact Hq. }
  destruct (z =? 1)%Z; [discriminate|]. cbv zeta in E2. rewrite sub1_64 in E2 by lia. destruct (N.eqb_spec x (n - 1)) as [Ex|Nx]; cbn [negb] in E2.
  - destruct ((ver =? 0) && (z =? -1)%Z) eqn:Ez.
    + apply andb_true_iff in Ez. destruct Ez as [_ Ez]. apply Z.eqb_eq in Ez. subst z. cbn in E2. injection E2 as <- _. rewrite <- Ex. exact (dpLadder_minus d x true s2 Hp El).
    + exfalso. match type of E2 with run P ?p s2 = _ => assert (C : clean p) end.
      { repeat match goal with |- clean (if ?b then _ else _) => destruct b | |- clean (match ?x with _ => _ end) => destruct x end; try discriminate; try exact I.
        all: try (apply clean_bind; [apply clean_getIncl|intro; exact I]). }
      pose proof (run_clean H hs _ C s2) as K. rewrite E2 in K. now apply K.
  - assert (Hr : lsize len + 1 < len) by (unfold x, sroot in *; lia). unfold x in E2. rewrite (nav_right n a len Hn R Hr) in E2. cbn [lift pbind] in E2.
    eapply IH; [| |exact Hp2|exact E2]; [constructor; auto|unfold sroot; lia].
Qed.

Lemma search_absent_fact fixed d d' l : incl (r_proofs (d_handle d)) pfs ->
  run P (if fixed : bool then fixedVersionSearch c ver n else greatestVersionSearch c ver n) d = (Fail ErrLabelNotFound, d', l) ->
  exists w, low ver w /\ factD H hs pfs d' (n - 1) w false.
Proof.
  intros Hp E. destruct (c09_entries n Hn) as (Er & _). destruct fixed.
  - unfold fixedVersionSearch in E. revert E. generalize 66%nat. intros fuel E. destruct (N.eqb_spec n 0); [lia|]. rewrite run_bind, run_getTs_dp, Er, sub1_64 in E by lia.
    pose proof (dpTs_ext H hs d (n - 1)) as (X1 & _ & _ & X4). pose proof (dpTs_error H hs d (n - 1)) as NE.
    assert (Tm : forall t, fst (dpTs RH d (n - 1)) = Ok t -> mget (d_ts (snd (dpTs RH d (n - 1)))) (n - 1) = Some t).
    { intros t Et. rewrite Et in X4. exact X4. }
    destruct (dpTs RH d (n - 1)) as [[t1|e1|e1|] s]; cbn [fst snd] in *; try discriminate.
    2:{ cbn in E. congruence. }
    cbn [andThen] in E. match type of E with context[run P ?p s] => destruct (run P p s) as [[r2 s3] evs2] eqn:E2 end. injection E as -> -> _.
    eapply (fixed_loop_absent fuel t1 0 n); [constructor|lia| | |exact E2].
    + intros q Hq. apply Hp. apply (x_proofs _ _ X1). exact Hq.
    + now apply Tm.
  - unfold greatestVersionSearch in E. revert E. generalize 66%nat. intros fuel E. destruct (N.eqb_spec n 0); [lia|]. destruct (c10_frontier n Hn) as (front & Ef & Ff).
    rewrite run_bind, run_catch, run_bind in E. pose proof (rightmost_cases H hs c n Hn front Ef 0 ltac:(lia) d) as K. cbv zeta in K. pose proof (run_ext H hs (rightmostDistinguished c n) d) as Q3.
    destruct (run P (rightmostDistinguished c n) d) as [[[o|m|m|] s] evs]; cbn [andThen orElse run result final fst snd] in *; try discriminate.
    assert (exists a len, match o with Some x => x | None => troot n end = sroot a len /\ SRange n a len /\ a + len = n) as (a & len & Ea & O & O').
    { destruct o as [x|]; [destruct K as (a & len & -> & O); unfold onFrontier in O; exists a, len; tauto|]. rewrite Er. exists 0, n. split; [reflexivity|]. split; [constructor|lia]. }
    rewrite Ea in E. match type of E with context[run P ?p s] => destruct (run P p s) as [[r2 s3] evs2] eqn:E2 end. injection E as -> -> _.
    eapply greatest_loop_absent; [exact O|exact O'| |exact E2]. intros q Hq. apply Hp. apply (x_proofs _ _ Q3). exact Hq.
Qed.
End Searches.
