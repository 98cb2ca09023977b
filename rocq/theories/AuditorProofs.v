(** Proofs about the auditor: its data provider, the distinguished entries of a growing log, the retained list. *)
From Verif Require Import Base BaseProofs LogMathModel LogMathProofs TransMathModel TransMathSpec TransMathProofs2 CodecModel AlgModel AlgSpec AlgProofs AlgProofs2 AlgProofs6
  HandleModel HandleProofs HandleProofs5 MutateProofs AuditorModel AuditorSpec.
Open Scope N_scope.

(** ** Distinguished entries of a growing log *)

Lemma lsize_full len : 1 <= len -> 2 * 2 ^ N.log2 len <= len + 1 -> lsize (len + 1) = len.
Proof.
  intros H1 B. unfold lsize. destruct (N.log2_spec len) as [A1 A2]; [lia|]. rewrite N.pow_succ_r' in A2.
  assert (E : N.log2 (len + 1) = N.succ (N.log2 len)).
  { apply N.log2_unique; [lia|]. rewrite !N.pow_succ_r'. split; lia. }
  rewrite E, N.pow_succ_r'. lia.
Qed.
Lemma lsize_more len : 1 <= len -> len + 1 < 2 * 2 ^ N.log2 len -> lsize (len + 1) = lsize len.
Proof.
  intros H1 B. unfold lsize. destruct (N.log2_spec len) as [A1 A2]; [lia|].
  assert (E : N.log2 (len + 1) = N.log2 len).
  { apply N.log2_unique; [lia|]. rewrite N.pow_succ_r'. split; lia. }
  now rewrite E.
Qed.

Lemma DIn_grow ts w a len l r y : DIn ts w a len l r y -> 1 <= len -> forall r',
  r <= r' -> r <= ts (a + len) -> DIn ts w a (len + 1) l r' y.
Proof.
  intro D. induction D as [a len l r Hw|a len l r y Hw Hl D IH|a len l r y Hw Hr D IH]; intros H1 r' Hr' Ht.
  all: pose proof (lsize_lt len H1) as HL;
    destruct (N.le_gt_cases (2 * 2 ^ N.log2 len) (len + 1)) as [B|B].
  all: first [pose proof (lsize_full len H1 B) as EL | pose proof (lsize_more len H1 B) as EL].
  all: assert (ES : sroot a (len + 1) = a + lsize (len + 1)) by reflexivity; rewrite EL in ES.
  - apply DI_left; rewrite ?ES, ?EL; [lia|lia|]. apply DI_here. lia.
  - replace (sroot a len) with (sroot a (len + 1)) by exact ES. apply DI_here. lia.
  - apply DI_left; rewrite ?ES, ?EL; [lia|lia|]. apply DI_left; [lia|exact Hl|exact D].
  - apply DI_left; rewrite ?ES, ?EL; [lia|lia|]. exact D.
  - apply DI_left; rewrite ?ES, ?EL; [lia|lia|]. apply DI_right; [lia|exact Hr|].
    assert (M : forall a len l r y, DIn ts w a len l r y -> forall r', r <= r' -> DIn ts w a len l r' y).
    { clear. intros a len l r y D. induction D; intros r' H'; [apply DI_here; lia|apply DI_left; auto; lia|apply DI_right; auto; lia]. }
    eapply M; [exact D|exact Ht].
  - apply DI_right; rewrite ?ES, ?EL; [lia|lia|]. change (a + lsize len) with (sroot a len).
    replace (len + 1 - lsize len - 1) with (len - lsize len - 1 + 1) by lia.
    apply IH; [lia|exact Hr'|]. replace (sroot a len + 1 + (len - lsize len - 1)) with (a + len) by (unfold sroot; lia). exact Ht.
Qed.

Lemma DIn_ext ts ts' w a len l r y : DIn ts w a len l r y -> 1 <= len -> (forall x, a <= x < a + len -> ts x = ts' x) -> DIn ts' w a len l r y.
Proof.
  intro D. induction D as [a len l r Hw|a len l r y Hw Hl D IH|a len l r y Hw Hr D IH]; intros H1 E.
  - now apply DI_here.
  - pose proof (lsize_lt len H1). apply DI_left; auto. rewrite <- E by (unfold sroot; lia). apply IH; [lia|]. intros; apply E; lia.
  - pose proof (lsize_lt len H1). apply DI_right; auto. rewrite <- E by (unfold sroot; lia). apply IH; [lia|]. intros; apply E; unfold sroot in *; lia.
Qed.

(** A distinguished entry stays distinguished when entries are added to the log. *)
Lemma distinguished_stays n n' ts w y : 1 <= n <= n' -> (forall i j, i <= j < n' -> ts i <= ts j) ->
  distinguished n ts w y -> distinguished n' ts w y.
Proof.
  intros Hn Hts D. assert (G : forall k, n + N.of_nat k <= n' -> distinguished (n + N.of_nat k) ts w y).
  { induction k as [|k IH]; intro Hk; [now replace (n + N.of_nat 0) with n by lia|].
    replace (n + N.of_nat (S k)) with (n + N.of_nat k + 1) by lia. unfold distinguished in *. apply DIn_grow with (r := ts (n + N.of_nat k - 1)).
    - apply IH. lia.
    - lia.
    - apply Hts. lia.
    - rewrite N.add_0_l. apply Hts. lia. }
  specialize (G (N.to_nat (n' - n))). replace (n + N.of_nat (N.to_nat (n' - n))) with n' in G by lia. apply G. lia.
Qed.

(** ** The auditor's data provider *)

Definition knows (ts : N -> N) (xs : list N) (d : dataProvider unit) : Prop := forall x, In x xs -> mget (d_ts d) x = Some (ts x).

Lemma retained_known ts xs : NoDup xs -> (forall x y, In x xs -> In y xs -> x <= y -> ts x <= ts y) ->
  exists d, addRetained (newDataProvider tt) [] (map (fun x => (x, {| le_ts := ts x; le_root := [] |})) xs) = Ok d /\ knows ts xs d.
Proof.
  intros ND Mono.
  set (inv := fun (done : list N) (d : dataProvider unit) =>
    (forall x, mget (d_ts d) x = if existsb (N.eqb x) done then Some (ts x) else None) /\ Forall (fun e => In (fst e) done /\ snd e = ts (fst e)) (d_ts d) /\
    (forall x, ~ In x done -> mget (d_roots d) x = None)).
  assert (G : forall rest done d, (forall x, In x rest -> In x xs) -> (forall x, In x done -> In x xs) -> NoDup (rest ++ done) -> inv done d ->
    exists d', foldM (fun d e =>
      let* ts := addTimestamp (d_ts d) (fst e) (le_ts (snd e)) in
      let* rs := addPrefixTree (d_roots d) (fst e) (le_root (snd e)) in
      Ok (withRoots (withTs d ts) rs)) (map (fun x => (x, {| le_ts := ts x; le_root := [] |})) rest) d = Ok d' /\
      exists done', inv done' d' /\ (forall x, In x rest \/ In x done -> In x done')).
  { induction rest as [|x rest IH]; intros done d I1 I2 ND' (A & B & C).
    - exists d. split; [reflexivity|]. exists done. split; [exact (conj A (conj B C))|]. intros x [[]|Hx]; exact Hx.
    - cbn [map foldM fst snd le_ts le_root]. inversion ND' as [|? ? Nx ND'']; subst.
      assert (Nd : ~ In x done) by (intro Q; apply Nx; apply in_or_app; auto).
      unfold addTimestamp. rewrite mhas_mget, A.
      assert (Ef : existsb (N.eqb x) done = false).
      { destruct (existsb (N.eqb x) done) eqn:Q; [|reflexivity]. apply existsb_exists in Q. destruct Q as (y & Iy & Ey). apply N.eqb_eq in Ey. subst. contradiction. }
      rewrite Ef.
      destruct (existsb _ (d_ts d)) eqn:Q.
      { exfalso. apply existsb_exists in Q. destruct Q as ([y t] & Iy & K). cbn in K.
        apply (proj1 (Forall_forall _ _) B) in Iy. cbn in Iy. destruct Iy as [Iy ->].
        assert (In x xs) by (apply I1; left; reflexivity). assert (In y xs) by (apply I2; exact Iy).
        destruct (N.ltb_spec x y).
        - pose proof (Mono x y ltac:(assumption) ltac:(assumption) ltac:(lia)). destruct (N.ltb_spec (ts y) (ts x)); [lia|]. cbn in K. destruct (N.ltb_spec y x); [lia|discriminate].
        - destruct (N.ltb_spec y x); [|discriminate]. pose proof (Mono y x ltac:(assumption) ltac:(assumption) ltac:(lia)). cbn in K. apply N.ltb_lt in K. lia. }
      cbn [bind]. unfold addPrefixTree. rewrite (C x Nd). cbn [bind].
      destruct (IH (x :: done) (withRoots (withTs d (mput (d_ts d) x (ts x))) (mput (d_roots d) x []))) as (d' & E & done' & I' & M').
      + intros y Iy. apply I1. now right.
      + intros y [<-|Iy]; [apply I1; now left|auto].
      + apply NoDup_cons in Nx; [|exact ND'']. apply (Permutation.Permutation_NoDup (Permutation.Permutation_middle rest done x)). exact Nx.
      + split; [|split]; cbn [d_ts withRoots withTs d_roots].
        * intro y. rewrite mget_mput, A. cbn [existsb]. destruct (N.eqb_spec y x) as [->|]; [reflexivity|]. reflexivity.
        * unfold mput. constructor; [split; [now left|reflexivity]|]. eapply Forall_impl; [|exact B]. intros e [P1 P2]. split; [now right|exact P2].
        * intros y Ny. rewrite mget_mput. destruct (N.eqb_spec y x) as [->|]; [exfalso; apply Ny; now left|]. apply C. intro Q'. apply Ny. now right.
      + exists d'. split; [exact E|]. exists done'. split; [exact I'|]. intros y [[<-|Iy]|Iy]; apply M'; [right; now left|left; exact Iy|right; now right]. }
  destruct (G xs [] {| d_handle := tt; d_subtrees := []; d_retained := map (fun x => (x, {| le_ts := ts x; le_root := [] |})) xs; d_ts := []; d_roots := [] |})
    as (d & E & done & (A & _ & _) & M); auto.
  - intros x [].
  - now rewrite app_nil_r.
  - split; [reflexivity|]. split; [constructor|reflexivity].
  - exists d. split; [exact E|]. intros x Ix. rewrite A. rewrite (proj2 (existsb_exists _ _)); [reflexivity|]. exists x. split; [apply M; left; exact Ix|apply N.eqb_refl].
Qed.

Lemma dpTs_known ts xs d x : knows ts xs d -> In x xs -> dpTs nilHandle d x = (Ok (ts x), d).
Proof. intros K Ix. unfold dpTs. rewrite (K x Ix). reflexivity. Qed.

(** A computation that only asks for timestamps the provider has. *)
Lemma run_known {A} ts xs d L (p : prog A) : knows ts xs d -> (forall x, In x xs -> x < h_n L -> h_ts L x = ts x) -> (forall x, In x xs -> x < h_n L) -> forall s,
  Forall (fun e => exists x r, e = EvTs x r /\ In x xs) (events (run (honest L) p s)) ->
  exists l, run (dpProvider nilHandle) p d = (result (run (honest L) p s), d, l).
Proof.
  intros K Ts Hx. induction p as [a|m|m| |x k IHk e IHe|x v o k IHk e IHe|x v k IHk e IHe|x v k IHk e IHe|x v k IHk|x o g l k IHk]; intros s F; try (eexists; reflexivity).
  - cbn [run] in *. cbn [pTs honest] in *. destruct (x <? h_n L) eqn:Lt.
    + rewrite addEv_events in F. inversion F as [|? ? (x' & r' & E' & A') F']; subst. injection E' as <- <-.
      cbn [pTs dpProvider]. rewrite (dpTs_known ts xs d x K A'). rewrite addEv_result. rewrite Ts in * by (auto; now apply N.ltb_lt).
      destruct (IHk _ _ F') as (l & El). rewrite El. eexists. reflexivity.
    + rewrite addEv_events in F. inversion F as [|? ? (x' & r' & E' & A') F']; subst. injection E' as <- <-.
      apply N.ltb_ge in Lt. apply Hx in A'. lia.
  - exfalso. cbn [run] in F. destruct (pLadder (honest L) s x v o) as [r s1]. rewrite addEv_events in F. inversion F as [|? ? (x' & r' & E' & A') F']; discriminate E'.
  - exfalso. cbn [run] in F. destruct (pMon (honest L) s x v) as [r s1]. rewrite addEv_events in F. inversion F as [|? ? (x' & r' & E' & A') F']; discriminate E'.
  - exfalso. cbn [run] in F. destruct (pIncl (honest L) s x v) as [r s1]. rewrite addEv_events in F. inversion F as [|? ? (x' & r' & E' & A') F']; discriminate E'.
  - exfalso. cbn [run] in F. cbv zeta in F. rewrite addEv_events in F. inversion F as [|? ? (x' & r' & E' & A') F']; discriminate E'.
  - exfalso. cbn [run] in F. rewrite addEv_events in F. inversion F as [|? ? (x' & r' & E' & A') F']; discriminate E'.
Qed.

(** The questions of a first part of a computation. *)
Lemma events_bind {A B S} (P : provider S) (p : prog A) (k : A -> prog B) s (Q : event -> Prop) :
  Forall Q (events (run P (pbind p k) s)) -> Forall Q (events (run P p s)).
Proof.
  rewrite run_bind. destruct (run P p s) as [[r s1] l]. unfold andThen. destruct r as [a|m|m|]; cbn [events snd]; auto.
  destruct (run P (k a) s1) as [[r2 s2] l2]. cbn [events snd]. intro F. apply Forall_app in F. exact (proj1 F).
Qed.

Section Steps.
Variable c : pubConfig.
Variable ts : N -> N.
Variable n : N.
Hypothesis Hn : n + 1 < 2 ^ 63.
Hypothesis Hmono : forall i j, i <= j <= n -> ts i <= ts j.
Hypothesis Hts : forall i, i <= n -> ts i < two64.

Let L : hlog := {| h_n := n + 1; h_ts := ts; h_g := fun _ => (-1)%Z |}.
Lemma auditLog_ok : okLog L.
Proof.
  unfold okLog, L; cbn [h_n h_ts h_g]. change (2 ^ 63) with 9223372036854775808 in Hn. change (2 ^ 64) with 18446744073709551616.
  split; [lia|]. split; [intros; apply Hmono; lia|]. split; [intros; apply Hts; lia|]. split; intros; lia.
Qed.

(** What the auditor's provider has to know. *)
Definition needed (xs : list N) : Prop := In n xs /\ (forall x, In x xs -> x <= n) /\ (forall f, SFront 0 n f -> forall x, In x f -> In x xs).

Lemma asked xs s : needed xs -> Forall (fun e => exists x r, e = EvTs x r /\ In x xs) (events (run (honest L) (previousRightmost c (n + 1)) s)).
Proof.
  intros (A & B & C). destruct (c17_previous c L s auditLog_ok) as (o & _ & _ & F). cbn [h_n L] in F.
  eapply Forall_impl; [|exact F]. intros e (x & r & -> & Hx). exists x, r. split; [reflexivity|].
  replace (n + 1 - 1) with n in Hx by lia. destruct Hx as [->|(f & Sf & If)]; [exact A|eapply C; eauto].
Qed.

Lemma audit_previous xs d : needed xs -> knows ts xs d -> exists o l,
  run (dpProvider nilHandle) (previousRightmost c (n + 1)) d = (Ok o, d, l) /\
  greatestOf (fun y => distinguished (n + 1) ts (pc_rmw c) y /\ y < n) o.
Proof.
  intros Nd K. destruct (c17_previous c L 0 auditLog_ok) as (o & E & G & _). cbn [h_n h_ts L] in E, G. replace (n + 1 - 1) with n in G by lia.
  destruct (run_known ts xs d L (previousRightmost c (n + 1)) K) with (s := 0) as (l & El).
  - reflexivity.
  - intros x Ix. cbn. destruct Nd as (_ & B & _). specialize (B x Ix). lia.
  - apply asked. exact Nd.
  - exists o, l. rewrite El, E. split; [reflexivity|exact G].
Qed.

Lemma audit_rightmost xs d : needed xs -> knows ts xs d -> exists o l,
  run (dpProvider nilHandle) (rightmostDistinguished c (n + 1)) d = (Ok o, d, l) /\ greatestOf (distinguished (n + 1) ts (pc_rmw c)) o.
Proof.
  intros Nd K. destruct (c16_rightmost c L 0 auditLog_ok) as (o & E & G). cbn [h_n h_ts L] in E, G.
  destruct (run_known ts xs d L (rightmostDistinguished c (n + 1)) K) with (s := 0) as (l & El).
  - reflexivity.
  - intros x Ix. cbn. destruct Nd as (_ & B & _). specialize (B x Ix). lia.
  - apply (asked xs 0) in Nd. unfold previousRightmost in Nd. exact (events_bind _ _ _ _ _ Nd).
  - exists o, l. rewrite El, E. split; [reflexivity|exact G].
Qed.

Lemma timestamps_known xs d : knows ts xs d -> forall front acc, (forall x, In x front -> In x xs) ->
  foldM (fun acc x => match dpTs nilHandle (snd acc) x with
                      | (Ok t, d') => Ok ((fst acc ++ [t])%list, d')
                      | (Fail m, _) => Fail m | (Panic m, _) => Panic m | (Fuel, _) => Fuel
                      end) front (acc, d) = Ok (acc ++ map ts front, d).
Proof.
  intro K. induction front as [|x t IH]; intros acc I; cbn [foldM map]; [now rewrite app_nil_r|].
  cbn [fst snd]. rewrite (dpTs_known ts xs d x K (I x (or_introl eq_refl))). cbn [bind]. rewrite IH by (intros; apply I; now right).
  rewrite <- app_assoc. reflexivity.
Qed.
End Steps.

(** The frontier lists positions in increasing order. *)
Lemma SFront_bounds a len f : SFront a len f -> Forall (fun x => a <= x < a + len) f.
Proof.
  intro F. induction F as [a len E|a len rest Hr F IH].
  - constructor; [unfold sroot; lia|constructor].
  - constructor; [unfold sroot; lia|]. eapply Forall_impl; [|exact IH]. cbn beta. unfold sroot. intros. lia.
Qed.
Lemma SFront_NoDup a len f : SFront a len f -> NoDup f.
Proof.
  intro F. induction F as [a len E|a len rest Hr F IH]; constructor; [intros []|constructor| |exact IH].
  intro I. apply SFront_bounds in F. apply (proj1 (Forall_forall _ _) F) in I. lia.
Qed.
Lemma SFront_last a len f : SFront a len f -> In (a + len - 1) f.
Proof.
  intro F. induction F as [a len E|a len rest Hr F IH]; [left; unfold sroot; lia|]. right. replace (a + len - 1) with (sroot a len + 1 + (len - lsize len - 1) - 1) by (unfold sroot; lia). exact IH.
Qed.
