(** A server's data provider and the client's, run side by side on the same program. *)
From Coq Require Import Sorted.
From Verif Require Import Base BaseProofs LogTreeModel LogTreeSpec LogChunkModel PrefixModel PrefixSpec PrefixHistProofs LaddersModel LaddersProofs
  CodecModel CodecSpec CodecProofs CodecProofs2 AlgModel AlgSpec AlgProofs AlgProofs4 HandleModel HandleSpec HandleProofs.
Open Scope N_scope.

(** ** Ladders asked for and expected *)

Definition asked (L : hlog) (tr : tracker) (x v : N) (o : bool) : list N :=
  if (h_g L x <? 0)%Z then [0] else
  match searchBinaryLadder v (toU32 (h_g L x)) (fst (searchMaps tr x o)) (snd (searchMaps tr x o)) with Ok l => l | _ => [] end.

(** What the tracker remembers is usable at [x] for target [v]. *)
Definition usable (L : hlog) (tr : tracker) (x v : N) (o : bool) : Prop :=
  (forall w, In w (fst (searchMaps tr x o)) -> w <= v /\ (Z.of_N w <= h_g L x)%Z) /\
  (forall w, In w (snd (searchMaps tr x o)) -> v + 1 < w /\ (h_g L x < Z.of_N w)%Z).

Lemma toU32_id z : (0 <= z < 4294967296)%Z -> Z.of_N (toU32 z) = z.
Proof. intros H. unfold toU32. rewrite Z.mod_small by lia. lia. Qed.

Lemma cmpZ_cmp3 g v : cmpZ g v = cmp3 g v.
Proof. unfold cmpZ, cmp3. destruct (Z.ltb_spec g (Z.of_N v)), (Z.ltb_spec (Z.of_N v) g), (Z.compare_spec g (Z.of_N v)); try lia; reflexivity. Qed.

Lemma loop_nonempty t g li rn base :
  (forall v, In v li -> v <= t /\ v <= g) -> (forall v, In v rn -> t + 1 < v /\ g < v) ->
  In (t + 1) base -> searchLadder_loop t g li rn base <> [].
Proof.
  intros Hli Hrn. induction base as [|v base IH]; [intros []|]. intros I. cbn [searchLadder_loop].
  destruct (mem32 v li || mem32 v rn) eqn:D.
  - assert (D' : v <= t /\ v <= g \/ t + 1 < v /\ g < v).
    { apply orb_true_iff in D. destruct D as [D|D]; apply mem32_In in D; [left; auto|right; auto]. }
    destruct I as [->|I]; [lia|].
    replace ((v <=? g) && (t <? v) || (g <? v) && (v <=? t)) with false by lia. auto.
  - discriminate.
Qed.

Lemma loop_subset t g li rn base v : In v (searchLadder_loop t g li rn base) -> In v base.
Proof.
  induction base as [|w base IH]; [auto|]. cbn [searchLadder_loop].
  destruct (mem32 w li || mem32 w rn); destruct ((w <=? g) && (t <? w) || (g <? w) && (w <=? t)); cbn [In]; intuition.
Qed.

Lemma loop_NoDup t g li rn base : NoDup base -> NoDup (searchLadder_loop t g li rn base).
Proof.
  induction 1 as [|w base N ND IH]; [constructor|]. cbn [searchLadder_loop].
  destruct (mem32 w li || mem32 w rn); destruct ((w <=? g) && (t <? w) || (g <? w) && (w <=? t)); auto; constructor; auto.
  - constructor.
  - intro I. apply N. eapply loop_subset; eauto.
Qed.

Lemma ladder_both L tr x v o : (-1 <= h_g L x < 2147483647)%Z -> v < 2 ^ 31 - 1 -> usable L tr x v o ->
  exists full rest,
    searchBinaryLadder v v (fst (searchMaps tr x o)) (snd (searchMaps tr x o)) = Ok full /\
    full = asked L tr x v o ++ rest /\
    (if (h_g L x <? 0)%Z then Ok [0] else searchBinaryLadder v (toU32 (h_g L x)) (fst (searchMaps tr x o)) (snd (searchMaps tr x o)))
      = Ok (asked L tr x v o) /\
    interpretSearchLadder full v (map (fun w => (Z.of_N w <=? h_g L x)%Z) (asked L tr x v o)) = Ok (cmp3 (h_g L x) v) /\
    asked L tr x v o <> [] /\ NoDup (asked L tr x v o) /\ Forall (fun w => w < 2 ^ 31) (asked L tr x v o).
Proof.
  intros Hg Hv [U1 U2]. unfold asked. destruct (base_spec v Hv) as (base & E & A & B & ND & F & _).
  set (li := fst (searchMaps tr x o)) in *. set (rn := snd (searchMaps tr x o)) in *.
  destruct (Z.ltb_spec (h_g L x) 0) as [Hneg|Hpos].
  - destruct (interpret_none v li rn (searchLadder_loop v v li rn base) Hv) as (I & rest & R).
    + intros I. apply U1 in I. lia.
    + intros I. apply U2 in I. lia.
    + unfold searchBinaryLadder. rewrite E. reflexivity.
    + exists (searchLadder_loop v v li rn base), rest. split; [unfold searchBinaryLadder; now rewrite E|].
      split; [exact R|]. split; [reflexivity|]. split.
      * cbn [map]. replace (Z.of_N 0 <=? h_g L x)%Z with false by lia. rewrite I. f_equal. unfold cmp3.
        destruct (Z.compare_spec (h_g L x) (Z.of_N v)); try lia; reflexivity.
      * split; [discriminate|]. split; repeat constructor; auto. 
  - set (g := toU32 (h_g L x)). assert (Eg : Z.of_N g = h_g L x) by (apply toU32_id; lia).
    destruct (search_ladder_agree v g li rn Hv) as (full & ask & E1 & E2 & I & rest & R).
    + intros w I. apply U1 in I. lia.
    + intros w I. apply U2 in I. lia.
    + rewrite E2. exists full, rest. split; [exact E1|]. split; [exact R|]. split; [reflexivity|]. split; [|split; [|split]].
      * rewrite <- cmpZ_cmp3, <- Eg, <- I. f_equal. apply map_ext. intros w. lia.
      * unfold searchBinaryLadder in E2. rewrite E in E2. injection E2 as <-. apply loop_nonempty; auto; intros w I'; [apply U1 in I'|apply U2 in I']; lia.
      * unfold searchBinaryLadder in E2. rewrite E in E2. injection E2 as <-. now apply loop_NoDup.
      * unfold searchBinaryLadder in E2. rewrite E in E2. injection E2 as <-. apply Forall_forall. intros w I'. apply loop_subset in I'.
        rewrite Forall_forall in F. auto.
Qed.

Lemma tracker_agree tr x o g ask rest :
  addResults tr x o (ask ++ rest) (map (fun w => (Z.of_N w <=? g)%Z) ask) = addLadder tr x o g ask.
Proof.
  unfold addResults, addLadder. destruct o; [|reflexivity]. cbn [negb].
  assert (E : combine (ask ++ rest) (map (fun w => (Z.of_N w <=? g)%Z) ask) = map (fun w => (w, (Z.of_N w <=? g)%Z)) ask).
  { induction ask as [|w ask IH]; cbn; [now destruct rest|now rewrite IH]. }
  rewrite E. f_equal; f_equal; f_equal; f_equal; clear E; induction ask as [|w ask IH]; cbn [map filter]; auto; cbn [snd negb];
    destruct (Z.of_N w <=? g)%Z; cbn [map fst negb]; now rewrite IH.
Qed.

(** ** Events of an honest run which both sides can follow *)

Definition isProof (e : event) : bool :=
  match e with EvLadder _ _ _ _ | EvMon _ _ _ => true | EvIncl _ (_ :: _) _ => true | _ => false end.
Definition noProofs (evs : list event) : Prop := forallb (fun e => negb (isProof e)) evs = true.

(** Answering the event makes the timestamp of [x] known. *)
Definition touches (x : N) (e : event) : Prop :=
  match e with EvTs y _ | EvLadder y _ _ _ | EvMon y _ _ => y = x | EvIncl y (_ :: _) _ => y = x | _ => False end.

Fixpoint smooth (L : hlog) (tr : tracker) (evs : list event) : Prop :=
  match evs with
  | [] => True
  | EvTs x _ :: rest => x < h_n L /\ smooth L tr rest
  | EvLadder x v o _ :: rest => x < h_n L /\ v < 2 ^ 31 - 1 /\ usable L tr x v o /\
      smooth L (addLadder tr x o (h_g L x) (asked L tr x v o)) rest
  | EvMon x v _ :: rest => x < h_n L /\ (Z.of_N v <= h_g L x)%Z /\ smooth L tr rest
  | EvIncl x vs _ :: rest => x < h_n L /\ (vs = [] \/ exists v, vs = [v] /\ (Z.of_N v <= h_g L x)%Z) /\ smooth L tr rest
  | EvStop x v b :: rest => x < h_n L /\ (b = true <-> noProofs rest) /\ smooth L tr rest
  | EvTrack x o g l :: rest => smooth L (addLadder tr x o g l) rest
  end.

Lemma addEv_inv {A S} e (X : res A * S * list event) a s l : addEv e X = (a, s, l) -> exists l', X = (a, s, l') /\ l = e :: l'.
Proof. destruct X as [[a0 s0] l0]. cbn. intros [= <- <- <-]. eauto. Qed.

Lemma noProofs_cons e l : isProof e = false -> (noProofs (e :: l) <-> noProofs l).
Proof. intros E. unfold noProofs. cbn. rewrite E. cbn. tauto. Qed.

Lemma not_noProofs e l : isProof e = true -> ~ noProofs (e :: l).
Proof. intros E. unfold noProofs. cbn. rewrite E. cbn. discriminate. Qed.

Section Sim.
Variable f : bytes -> bytes.
Variable hs : N.
Variable W : world.
Hypothesis HF : faithful f hs W.
Hypothesis Hf : forall x, List.length (f x) = N.to_nat hs.
Hypothesis Hsmall : (N.to_nat hs <= 32)%nat.
Hypothesis Hpos : 0 < hs.

Local Notation L := (observed W).
Local Notation n := (lenN (w_entries W)).
Local Notation ts x := (le_ts (entryAt W x)).
Local Notation root x := (le_root (entryAt W x)).
Local Notation g x := (h_g (observed W) x).
Local Notation key := (w_key W).
Local Notation com := (w_com W).
Local Notation nhs := (N.to_nat hs).

Lemma Wok : okLog L. Proof. apply HF. Qed.

Lemma Wg x : x < n -> (-1 <= g x < 2147483647)%Z.
Proof. intros H. apply Wok. exact H. Qed.

Lemma Wg_mono x y : x <= y < n -> (g x <= g y)%Z.
Proof. intros H. apply Wok. exact H. Qed.

Lemma entry_in x : x < n -> In (entryAt W x) (w_entries W).
Proof.
  intros H. unfold entryAt. destruct (nth_error _ _) eqn:E; [now apply nth_error_In in E|].
  apply nth_error_None in E. unfold lenN in H. lia.
Qed.

Lemma entry_nth x : x < n -> nth_error (w_entries W) (N.to_nat x) = Some (entryAt W x).
Proof.
  intros H. unfold entryAt. destruct (nth_error _ _) eqn:E; [reflexivity|].
  apply nth_error_None in E. unfold lenN in H. lia.
Qed.

Lemma getLogEntry_ok x : x < n -> getLogEntry hs (w_entriesDb W) x = Ok (entryAt W x).
Proof.
  intros H. destruct HF as ((_ & _ & Ht & _) & _ & _ & Hr & Hd & _). destruct (Hd x H) as (raw & E & Ed).
  unfold getLogEntry. rewrite Ed. destruct (codec_logEntry nhs) as (C & _).
  rewrite <- (app_nil_r raw), (C (entryAt W x) raw []); [reflexivity| |exact E].
  split; [exact (Ht x H)|]. unfold size. apply Hr. now apply entry_in.
Qed.

Lemma greatestAt_obs q x : q_index q = w_index W -> x < n -> greatestAt q x = Ok (g x).
Proof.
  intros E H. unfold greatestAt. rewrite E. destruct HF as ((Hn & _) & _ & HS & _).
  destruct (bsearch_spec (w_index W) x HS) as [B _].
  { cbn [observed h_n] in Hn. unfold two64. lia. }
  rewrite B. reflexivity.
Qed.

(** ** Proofs *)

Definition okCom (x v : N) (c : bytes) : Prop :=
  if (Z.of_N v <=? g x)%Z then c = com v else c = [] \/ List.length c = nhs.

Definition proves (q : N * list N) (p : pproof) : Prop :=
  map rincl (p_results p) = map (fun v => (Z.of_N v <=? g (fst q))%Z) (snd q) /\
  forall coms, Forall2 (okCom (fst q)) (snd q) coms ->
    Evaluate (full f) nhs (combine (map key (snd q)) coms) p = Ok (root (fst q)).

Definition okQuery (q : N * list N) : Prop :=
  fst q < n /\ snd q <> [] /\ NoDup (snd q) /\ Forall (fun v => v < 2 ^ 31) (snd q).

Lemma map_fst_combine {A B} (a : list A) (b : list B) : List.length a = List.length b -> map fst (combine a b) = a.
Proof. revert b. induction a as [|x a IH]; intros [|y b] E; cbn in *; try lia; f_equal; auto. Qed.

Lemma NoDup_keys vs : NoDup vs -> Forall (fun v => v < 2 ^ 31) vs -> NoDup (map key vs).
Proof.
  destruct HF as (_ & _ & _ & _ & _ & _ & _ & _ & Hinj).
  induction 1 as [|v vs NI ND IH]; intros F; [constructor|]. inversion_clear F as [|? ? Hv F']. cbn. constructor; auto.
  intros I. apply in_map_iff in I. destruct I as (u & E & Iu). rewrite Forall_forall in F'. pose proof (F' u Iu).
  assert (u = v) by (apply Hinj; auto; lia). congruence.
Qed.

Lemma proves_search q : okQuery q -> exists p,
  search (full f) nhs (w_prefixDb W) (add64 (fst q) 1) (map key (snd q)) =
    Ok (p, map (fun v => if (Z.of_N v <=? g (fst q))%Z then Some (com v) else None) (snd q)) /\ proves q p.
Proof.
  destruct q as [x vs]. intros (Hx & NE & ND & F). cbn [fst snd] in *.
  pose proof HF as ((Hn & _) & H63 & _ & _ & _ & _ & (vers & Hh & HV) & HK & _). destruct (HV x Hx) as (m & Em & Hm).
  assert (Ea : add64 x 1 = x + 1) by (cbn [observed h_n] in Hn; unfold add64, two64; apply N.mod_small; lia).
  assert (Fm : forall v, In v vs -> m (key v) = if (Z.of_N v <=? g x)%Z then Some (com v) else None).
  { intros v I. apply Hm. rewrite Forall_forall in F. specialize (F v I). lia. }
  destruct (hist_search f nhs Hf Hsmall (w_prefixDb W) vers (x + 1) m (root x) (map key vs)) as (p & E & R & Ev).
  - exact Hh.
  - replace (N.to_nat (x + 1)) with (S (N.to_nat x)) by lia. exact Em.
  - lia.
  - destruct vs; [congruence|discriminate].
  - apply Forall_forall. intros k I. apply in_map_iff in I. destruct I as (v & <- & _). apply HK.
  - exists p. rewrite Ea, E. split.
    + do 2 f_equal. rewrite map_map. apply map_ext_in. exact Fm.
    + split; cbn [fst snd].
      * rewrite R, map_map. apply map_ext_in. intros v I. rewrite (Fm v I). now destruct (Z.of_N v <=? g x)%Z.
      * intros coms Fc. apply Ev.
        -- apply map_fst_combine. rewrite map_length. clear -Fc. induction Fc; cbn; auto.
        -- now apply NoDup_keys.
        -- clear -Fc Fm. revert Fm. induction Fc as [|v c vs coms Hc Fc IH]; intros Fm; cbn; constructor.
           ++ cbn [fst snd]. rewrite (Fm v) by now left. unfold okCom in Hc. now destruct (Z.of_N v <=? g x)%Z.
           ++ apply IH. intros u I. apply Fm. now right.
Qed.

(** The client has the VRF output of the version, and its commitment if it exists. *)
Definition knows (vm : verMap) (x v : N) : Prop :=
  exists c, mget vm v = Some (key v, c) /\
    if (Z.of_N v <=? g x)%Z then c = Some (com v) else match c with None => True | Some b => List.length b = nhs end.

Lemma lookup_ok vm x vs rest : x < n -> Forall (knows vm x) vs ->
  exists coms, lookupEntries vm (vs ++ rest) (map (fun v => (Z.of_N v <=? g x)%Z) vs) = Ok (combine (map key vs) coms) /\
    Forall2 (okCom x) vs coms.
Proof.
  intros Hx.
  assert (Hc : forall v, List.length (com v) = nhs) by apply HF.
  induction 1 as [|v vs (c & E & K) F IH].
  - exists []. split; [destruct rest; reflexivity|constructor].
  - destruct IH as (coms & E' & F'). cbn [map app lookupEntries]. rewrite E.
    exists ((match c with Some b => b | None => [] end) :: coms). rewrite E'. cbn [bind].
    assert (O : okCom x v (match c with Some b => b | None => [] end) /\ ((Z.of_N v <=? g x)%Z && match c with None => true | Some _ => false end) = false).
    { unfold okCom. specialize (Hc v). destruct (Z.leb_spec (Z.of_N v) (g x)).
      - subst c. auto.
      - destruct c; auto. }
    destruct O as [O1 O2]. rewrite O2. split; [reflexivity|constructor; auto].
Qed.

(** ** The two providers, step by step *)

Definition trueTs (M : list (N * N)) : Prop := NoDup (map fst M) /\ forall x t, mget M x = Some t -> x < n /\ t = ts x.
Definition trueRoots (R : list (N * bytes)) : Prop := forall x r, mget R x = Some r -> x < n /\ r = root x.

Definition mkP vm tr qts qps qr sub ret M R : dataProvider produced :=
  {| d_handle := {| q_index := w_index W; q_versions := vm; q_tracker := tr; q_ts := qts; q_proofs := qps; q_roots := qr |};
     d_subtrees := sub; d_retained := ret; d_ts := M; d_roots := R |}.
Definition mkR vm tr rts rps rr ri sub ret M R : dataProvider received :=
  {| d_handle := {| r_ts := rts; r_proofs := rps; r_roots := rr; r_incl := ri; r_versions := vm; r_tracker := tr |};
     d_subtrees := sub; d_retained := ret; d_ts := M; d_roots := R |}.

Definition stepTs (M : list (N * N)) (x : N) : list (N * N) := if mhas M x then M else mput M x (ts x).
Definition usedTs (M : list (N * N)) (x : N) : list N := if mhas M x then [] else [ts x].
Definition stepRoot (R : list (N * bytes)) (x : N) : list (N * bytes) := if mhas R x then R else mput R x (root x).

Lemma nodup_mget {V} (M : list (N * V)) x : mget M x = None -> ~ In x (map fst M).
Proof.
  induction M as [|[k v] M IH]; cbn [map fst mget]; [auto|].
  destruct (N.eqb_spec x k) as [->|D]; [discriminate|]. intros E [I|I]; [congruence|]. now apply IH.
Qed.

Lemma mget_nodup {V} (M : list (N * V)) x v : NoDup (map fst M) -> In (x, v) M -> mget M x = Some v.
Proof.
  induction M as [|[k w] M IH]; cbn [map fst]; [intros _ []|]. intros ND. inversion_clear ND as [|? ? NI ND']. intros [E|I].
  - injection E as -> ->. cbn [mget]. now rewrite N.eqb_refl.
  - cbn [mget]. destruct (N.eqb_spec x k) as [->|D]; auto. exfalso. apply NI. apply in_map_iff. now exists (k, v).
Qed.

Lemma step_trueTs M x : trueTs M -> x < n -> trueTs (stepTs M x).
Proof.
  intros [ND T] Hx. unfold stepTs, mhas. destruct (mget M x) eqn:E; [now split|]. split.
  - cbn. constructor; [now apply nodup_mget|exact ND].
  - intros y t. rewrite mget_mput. destruct (N.eqb_spec y x) as [->|]; [intros [= <-]; auto|apply T].
Qed.

Lemma step_trueRoots R x : trueRoots R -> x < n -> trueRoots (stepRoot R x).
Proof.
  intros T Hx. unfold stepRoot, mhas. destruct (mget R x) eqn:E; [auto|].
  intros y t. rewrite mget_mput. destruct (N.eqb_spec y x) as [->|]; [intros [= <-]; auto|apply T].
Qed.

Lemma step_ts_grows M x : grows M (stepTs M x).
Proof.
  intros y t E. unfold stepTs, mhas. destruct (mget M x) eqn:E'; auto. rewrite mget_mput. destruct (N.eqb_spec y x) as [->|]; congruence.
Qed.

Lemma step_root_grows R x : grows R (stepRoot R x).
Proof.
  intros y t E. unfold stepRoot, mhas. destruct (mget R x) eqn:E'; auto. rewrite mget_mput. destruct (N.eqb_spec y x) as [->|]; congruence.
Qed.

Lemma step_ts_has M x t : trueTs M -> x < n -> t = ts x -> mget (stepTs M x) x = Some t.
Proof.
  intros [_ T] Hx ->. unfold stepTs, mhas. destruct (mget M x) eqn:E'; [|cbn; now rewrite N.eqb_refl]. rewrite E'. now destruct (T _ _ E') as [_ ->].
Qed.

Lemma addTimestamp_true M x : trueTs M -> x < n -> mget M x = None -> addTimestamp M x (ts x) = Ok (mput M x (ts x)).
Proof.
  intros [ND T] Hx E. unfold addTimestamp, mhas. rewrite E.
  destruct (existsb _ M) eqn:B; [|reflexivity]. exfalso. apply existsb_exists in B. destruct B as ([y t] & I & C). cbn [fst snd] in C.
  destruct (T y t (mget_nodup _ _ _ ND I)) as [Hy ->]. pose proof Wok as (_ & Hm & _). cbn [observed h_ts h_n] in Hm.
  apply orb_true_iff in C. destruct C as [C|C]; apply andb_true_iff in C; destruct C as [C1 C2]; apply N.ltb_lt in C1; apply N.ltb_lt in C2.
  - specialize (Hm x y). lia.
  - specialize (Hm y x). lia.
Qed.

Lemma addRoot_true R x : trueRoots R -> addPrefixTree R x (root x) = Ok (stepRoot R x).
Proof.
  intros T. unfold addPrefixTree, stepRoot, mhas. destruct (mget R x) eqn:E; [|reflexivity].
  destruct (T _ _ E) as [_ ->]. now rewrite bytes_eqb_refl.
Qed.

Local Notation PH := (producedHandle hs (w_entriesDb W)).
Local Notation RH := (receivedHandle (full f) hs).

Lemma P_ts vm tr qts qps qr sub ret M R x : trueTs M -> x < n ->
  dpTs PH (mkP vm tr qts qps qr sub ret M R) x = (Ok (ts x), mkP vm tr (qts ++ usedTs M x) qps qr sub ret (stepTs M x) R).
Proof.
  intros T Hx. unfold dpTs, usedTs, stepTs, mhas. cbn [mkP d_ts]. destruct (mget M x) eqn:E.
  - destruct T as [_ T]. destruct (T _ _ E) as [_ ->]. now rewrite app_nil_r.
  - cbn [producedHandle hTs d_handle mkP]. unfold qTs. rewrite getLogEntry_ok by auto. cbn [bind keepingQ withHandle d_ts].
    rewrite addTimestamp_true by auto. reflexivity.
Qed.

Lemma R_ts vm tr T0 rps rr ri sub ret M R x : trueTs M -> x < n ->
  dpTs RH (mkR vm tr (usedTs M x ++ T0) rps rr ri sub ret M R) x = (Ok (ts x), mkR vm tr T0 rps rr ri sub ret (stepTs M x) R).
Proof.
  intros T Hx. unfold dpTs, usedTs, stepTs, mhas. cbn [mkR d_ts]. destruct (mget M x) eqn:E.
  - destruct T as [_ T]. destruct (T _ _ E) as [_ ->]. reflexivity.
  - cbn [receivedHandle hTs d_handle mkR rTs r_ts app withHandle d_ts].
    rewrite addTimestamp_true by auto. reflexivity.
Qed.

Lemma P_ladder vm tr qts qps qr sub ret M R x v o : trueTs M -> trueRoots R -> x < n -> v < 2 ^ 31 - 1 -> usable L tr x v o ->
  dpLadder PH (mkP vm tr qts qps qr sub ret M R) x v o =
    (Ok (cmp3 (g x) v), mkP vm (addLadder tr x o (g x) (asked L tr x v o)) (qts ++ usedTs M x) (qps ++ [(x, asked L tr x v o)]) qr sub ret (stepTs M x) (stepRoot R x)).
Proof.
  intros T TR Hx Hv U. unfold dpLadder. rewrite P_ts by auto. cbn [producedHandle hLadder d_handle mkP]. unfold qLadder.
  rewrite greatestAt_obs by auto. cbn [bind q_tracker].
  destruct (ladder_both L tr x v o (Wg x Hx) Hv U) as (full & rest & E1 & E2 & E3 & E4 & _).
  destruct (searchMaps tr x o) as [li rn] eqn:Em. cbn [fst snd] in *. rewrite E3. cbn [bind]. rewrite getLogEntry_ok by auto. cbn [bind keepingQ].
  unfold dpRoot. cbn [withHandle d_roots mkP]. rewrite addRoot_true by auto. rewrite <- cmpZ_cmp3. reflexivity.
Qed.

Lemma R_ladder vm tr T0 p rps rr ri sub ret M R x v o : trueTs M -> trueRoots R -> x < n -> v < 2 ^ 31 - 1 -> usable L tr x v o ->
  proves (x, asked L tr x v o) p -> Forall (knows vm x) (asked L tr x v o) ->
  dpLadder RH (mkR vm tr (usedTs M x ++ T0) (p :: rps) rr ri sub ret M R) x v o =
    (Ok (cmp3 (g x) v), mkR vm (addLadder tr x o (g x) (asked L tr x v o)) T0 rps rr ri sub ret (stepTs M x) (stepRoot R x)).
Proof.
  intros T TR Hx Hv U [Pr Pe] K. unfold dpLadder. rewrite R_ts by auto. cbn [receivedHandle hLadder d_handle mkR]. unfold rLadder. cbn [r_proofs r_tracker].
  destruct (ladder_both L tr x v o (Wg x Hx) Hv U) as (full & rest & E1 & E2 & E3 & E4 & _).
  destruct (lookup_ok vm x (asked L tr x v o) rest Hx K) as (coms & El & Fc).
  destruct (searchMaps tr x o) as [li rn] eqn:Em. cbn [fst snd] in *. rewrite E1. cbn [bind]. rewrite Pr, E4. cbn [bind r_versions].
  rewrite E2, El. cbn [bind]. rewrite (Pe coms Fc). cbn [bind keeping]. unfold dpRoot. cbn [withHandle d_roots mkR].
  rewrite addRoot_true by auto. rewrite tracker_agree. reflexivity.
Qed.

Definition monLadder (v : N) : list N := match monitoringBinaryLadder v with Ok l => l | _ => [] end.

Lemma mon_both x v : x < n -> (Z.of_N v <= g x)%Z ->
  monitoringBinaryLadder v = Ok (monLadder v) /\ monLadder v <> [] /\ NoDup (monLadder v) /\ Forall (fun w => w < 2 ^ 31) (monLadder v) /\
  map (fun w => (Z.of_N w <=? g x)%Z) (monLadder v) = map (fun _ => true) (monLadder v).
Proof.
  intros Hx Hv. pose proof (Wg x Hx). destruct (monitoring_spec v ltac:(lia)) as (l & E & I & F & ND). unfold monLadder. rewrite E.
  split; [reflexivity|]. split; [intros ->; destruct I|]. split; [exact ND|]. rewrite Forall_forall in F. split.
  - apply Forall_forall. intros w Iw. specialize (F w Iw). lia.
  - apply map_ext_in. intros w Iw. specialize (F w Iw). lia.
Qed.

Lemma P_mon vm tr qts qps qr sub ret M R x v : trueTs M -> trueRoots R -> x < n -> (Z.of_N v <= g x)%Z ->
  dpMon PH (mkP vm tr qts qps qr sub ret M R) x v =
    (Ok tt, mkP vm tr (qts ++ usedTs M x) (qps ++ [(x, monLadder v)]) qr sub ret (stepTs M x) (stepRoot R x)).
Proof.
  intros T TR Hx Hv. unfold dpMon. rewrite P_ts by auto. cbn [producedHandle hMon d_handle mkP]. unfold qMon.
  rewrite getLogEntry_ok by auto. cbn [bind]. destruct (mon_both x v Hx Hv) as (E & _). rewrite E. cbn [bind keepingQ noResult].
  unfold dpRoot. cbn [withHandle d_roots mkP]. rewrite addRoot_true by auto. reflexivity.
Qed.

Lemma results_len p vs x : map rincl (p_results p) = map (fun v => (Z.of_N v <=? g x)%Z) vs -> List.length (p_results p) = List.length vs.
Proof. intros E. apply (f_equal (@List.length bool)) in E. now rewrite !map_length in E. Qed.

Lemma all_incl p (vs : list N) : map rincl (p_results p) = map (fun _ => true) vs -> forallb rincl (p_results p) = true.
Proof.
  intros E. apply forallb_forall. intros r I. apply (in_map rincl) in I. rewrite E in I. apply in_map_iff in I. now destruct I as (? & <- & _).
Qed.

Lemma R_mon vm tr T0 p rps rr ri sub ret M R x v : trueTs M -> trueRoots R -> x < n -> (Z.of_N v <= g x)%Z ->
  proves (x, monLadder v) p -> Forall (knows vm x) (monLadder v) ->
  dpMon RH (mkR vm tr (usedTs M x ++ T0) (p :: rps) rr ri sub ret M R) x v =
    (Ok tt, mkR vm tr T0 rps rr ri sub ret (stepTs M x) (stepRoot R x)).
Proof.
  intros T TR Hx Hv [Pr Pe] K. unfold dpMon. rewrite R_ts by auto. cbn [receivedHandle hMon d_handle mkR]. unfold rMon. cbn [r_proofs].
  destruct (mon_both x v Hx Hv) as (E & _ & _ & _ & Eb). rewrite E. cbn [bind]. cbn [fst snd] in *.
  rewrite (results_len _ _ _ Pr), Nat.eqb_refl. cbn [negb]. rewrite Eb in Pr. rewrite (all_incl _ _ Pr). cbn [negb r_versions].
  destruct (lookup_ok vm x (monLadder v) [] Hx K) as (coms & El & Fc). rewrite app_nil_r, Eb in El. rewrite El. cbn [bind].
  rewrite (Pe coms Fc). cbn [bind keeping noResult]. unfold dpRoot. cbn [withHandle d_roots mkR].
  rewrite addRoot_true by auto. reflexivity.
Qed.

Lemma P_incl vm tr qts qps qr sub ret M R x v : trueTs M -> trueRoots R -> x < n ->
  dpIncl PH (mkP vm tr qts qps qr sub ret M R) x [v] =
    (Ok tt, mkP vm tr (qts ++ usedTs M x) (qps ++ [(x, [v])]) qr sub ret (stepTs M x) (stepRoot R x)).
Proof.
  intros T TR Hx. unfold dpIncl. rewrite P_ts by auto. cbn [producedHandle hIncl d_handle mkP]. unfold qIncl.
  rewrite getLogEntry_ok by auto. cbn [bind keepingQ noResult].
  unfold dpRoot. cbn [withHandle d_roots mkP]. rewrite addRoot_true by auto. reflexivity.
Qed.

Lemma R_incl vm tr T0 p rps rr ri sub ret M R x v : trueTs M -> trueRoots R -> x < n -> (Z.of_N v <= g x)%Z ->
  proves (x, [v]) p -> knows vm x v ->
  dpIncl RH (mkR vm tr (usedTs M x ++ T0) (p :: rps) rr ri sub ret M R) x [v] =
    (Ok tt, mkR vm tr T0 rps rr ri sub ret (stepTs M x) (stepRoot R x)).
Proof.
  intros T TR Hx Hv [Pr Pe] K. unfold dpIncl. rewrite R_ts by auto. cbn [receivedHandle hIncl d_handle mkR]. unfold rIncl. cbn [r_proofs].
  cbn [fst snd] in *. assert (Eb : map (fun w => (Z.of_N w <=? g x)%Z) [v] = map (fun _ => true) [v]) by (cbn [map]; f_equal; now apply Z.leb_le).
  rewrite (results_len _ _ _ Pr). change (negb (List.length [v] =? 1)%nat) with false. cbv iota. rewrite Eb in Pr. rewrite (all_incl _ _ Pr). cbn [negb r_versions].
  destruct (lookup_ok vm x [v] [] Hx (Forall_cons _ K (Forall_nil _))) as (coms & El & Fc). rewrite app_nil_r, Eb in El. rewrite El. cbn [bind].
  rewrite (Pe coms Fc). cbn [bind keeping noResult]. unfold dpRoot. cbn [withHandle d_roots mkR].
  rewrite addRoot_true by auto. reflexivity.
Qed.

(** ** Side by side *)

Lemma simulate {A} (p : prog A) : forall s tr a s' evs M R,
  run (honest L) p s = (a, s', evs) -> smooth L tr evs -> trueTs M -> trueRoots R ->
  exists M' R' dts dps tr', trueTs M' /\ trueRoots R' /\ grows M M' /\ grows R R' /\
    (forall x e, In e evs -> touches x e -> mget M' x = Some (ts x)) /\
    (dps = [] <-> noProofs evs) /\ Forall okQuery dps /\
    (forall vm qts qps qr sub ret, s = lenN qps ->
       run (dpProvider PH) p (mkP vm tr qts qps qr sub ret M R) = (a, mkP vm tr' (qts ++ dts) (qps ++ dps) qr sub ret M' R', evs)) /\
    (forall vm T0 ps rr ri sub ret, Forall2 proves dps ps -> Forall (fun q => Forall (knows vm (fst q)) (snd q)) dps ->
       run (dpProvider RH) p (mkR vm tr (dts ++ T0) ps rr ri sub ret M R) = (a, mkR vm tr' T0 [] rr ri sub ret M' R', evs)).
Proof.
  induction p as [a0|m|m| |x k IHk e IHe|x v o k IHk e IHe|x v k IHk e IHe|x vs k IHk e IHe|x v k IHk|x o g0 l k IHk];
    intros s tr a s' evs M R; cbn [run].
  1-4: intros [= <- <- <-] _ T TR; exists M, R, [], [], tr;
    (split; [exact T|split; [exact TR|split; [exact (fun _ _ H => H)|split; [exact (fun _ _ H => H)|split; [intros ? ? []|split; [split; reflexivity|split; [constructor|split]]]]]]]);
    [intros; now rewrite !app_nil_r|intros ? ? ? ? ? ? ? F _; inversion F; reflexivity].
  - cbn [honest pTs]. intros E Sm T TR. apply addEv_inv in E. destruct E as (l & E & ->). cbn [smooth] in Sm. destruct Sm as [Hx Sm].
    cbn [observed h_n] in Hx. cbn [observed h_n h_ts] in *. rewrite (proj2 (N.ltb_lt _ _) Hx) in *.
    destruct (IHk _ s tr a s' l (stepTs M x) R E Sm (step_trueTs M x T Hx) TR) as (M' & R' & dts & dps & tr' & T' & TR' & G & GR & HE & ND & FQ & EP & ER).
    exists M', R', (usedTs M x ++ dts), dps, tr'. split; [exact T'|]. split; [exact TR'|]. split; [eapply grows_trans; [apply step_ts_grows|exact G]|]. split; [exact GR|].
    split; [|split; [|split; [exact FQ|split]]].
    + intros y ev [<-|I] Ty; [cbn in Ty; subst y; apply G; now apply step_ts_has|eauto].
    + rewrite noProofs_cons; auto.
    + intros vm qts qps qr sub ret Es. cbn [dpProvider pTs]. rewrite P_ts by auto. rewrite (EP vm (qts ++ usedTs M x) qps qr sub ret Es). cbn [addEv].
      now rewrite app_assoc.
    + intros vm T0 ps rr ri sub ret F K. cbn [dpProvider pTs]. rewrite <- app_assoc, R_ts by auto. rewrite ER by auto. reflexivity.
  - cbn [honest pLadder]. intros E Sm T TR. apply addEv_inv in E. destruct E as (l & E & ->). cbn [smooth] in Sm. destruct Sm as (Hx & Hv & U & Sm).
    cbn [observed h_n] in Hx. change (h_n L) with n in *. rewrite (proj2 (N.ltb_lt _ _) Hx) in *.
    destruct (IHk _ (s + 1) _ a s' l (stepTs M x) (stepRoot R x) E Sm (step_trueTs M x T Hx) (step_trueRoots R x TR Hx)) as (M' & R' & dts & dps & tr' & T' & TR' & G & GR & HE & ND & FQ & EP & ER).
    destruct (ladder_both L tr x v o (Wg x Hx) Hv U) as (_ & _ & _ & _ & _ & _ & NE & NDa & F31).
    exists M', R', (usedTs M x ++ dts), ((x, asked L tr x v o) :: dps), tr'. split; [exact T'|]. split; [exact TR'|]. split; [eapply grows_trans; [apply step_ts_grows|exact G]|].
    split; [eapply grows_trans; [apply step_root_grows|exact GR]|].
    split; [|split; [|split; [|split]]].
    + intros y ev [<-|I] Ty; [cbn in Ty; subst y; apply G; now apply step_ts_has|eauto].
    + split; [discriminate|]. intro N. exfalso. revert N. now apply not_noProofs.
    + constructor; [|exact FQ]. repeat split; auto.
    + intros vm qts qps qr sub ret Es. cbn [dpProvider pLadder]. rewrite P_ladder by auto.
      rewrite (EP vm (qts ++ usedTs M x) (qps ++ [(x, asked L tr x v o)]) qr sub ret) by (rewrite Es; unfold lenN; rewrite app_length; cbn; lia). cbn [addEv].
      now rewrite <- !app_assoc.
    + intros vm T0 ps rr ri sub ret F K. inversion F as [|q p0 dps0 ps0 Pp Fp]; subst. inversion K as [|q0 dps1 Kq Kt]; subst.
      cbn [dpProvider pLadder]. rewrite <- app_assoc, R_ladder by auto. rewrite ER by auto. reflexivity.
  - cbn [honest pMon]. intros E Sm T TR. apply addEv_inv in E. destruct E as (l & E & ->). cbn [smooth] in Sm. destruct Sm as (Hx & Hv & Sm).
    cbn [observed h_n] in Hx. change (h_n L) with n in *. rewrite (proj2 (N.ltb_lt _ _) Hx), (proj2 (Z.leb_le _ _) Hv) in *. cbn [andb] in *.
    destruct (IHk (s + 1) _ a s' l (stepTs M x) (stepRoot R x) E Sm (step_trueTs M x T Hx) (step_trueRoots R x TR Hx)) as (M' & R' & dts & dps & tr' & T' & TR' & G & GR & HE & ND & FQ & EP & ER).
    destruct (mon_both x v Hx Hv) as (_ & NE & NDa & F31 & _).
    exists M', R', (usedTs M x ++ dts), ((x, monLadder v) :: dps), tr'. split; [exact T'|]. split; [exact TR'|]. split; [eapply grows_trans; [apply step_ts_grows|exact G]|].
    split; [eapply grows_trans; [apply step_root_grows|exact GR]|].
    split; [|split; [|split; [|split]]].
    + intros y ev [<-|I] Ty; [cbn in Ty; subst y; apply G; now apply step_ts_has|eauto].
    + split; [discriminate|]. intro N. exfalso. revert N. now apply not_noProofs.
    + constructor; [|exact FQ]. repeat split; auto.
    + intros vm qts qps qr sub ret Es. cbn [dpProvider pMon]. rewrite P_mon by auto.
      rewrite (EP vm (qts ++ usedTs M x) (qps ++ [(x, monLadder v)]) qr sub ret) by (rewrite Es; unfold lenN; rewrite app_length; cbn; lia). cbn [addEv].
      now rewrite <- !app_assoc.
    + intros vm T0 ps rr ri sub ret F K. inversion F as [|q p0 dps0 ps0 Pp Fp]; subst. inversion K as [|q0 dps1 Kq Kt]; subst.
      cbn [dpProvider pMon]. rewrite <- app_assoc, R_mon by auto. rewrite ER by auto. reflexivity.
  - cbn [honest pIncl]. intros E Sm T TR. apply addEv_inv in E. destruct E as (l & E & ->). cbn [smooth] in Sm. destruct Sm as (Hx & Hv & Sm).
    cbn [observed h_n] in Hx. change (h_n L) with n in *. rewrite (proj2 (N.ltb_lt _ _) Hx) in *. cbn [andb] in *.
    destruct Hv as [->|(v & -> & Hv)].
    { cbn [forallb] in E. rewrite N.add_0_r in E.
      destruct (IHk s tr a s' l M R E Sm T TR) as (M' & R' & dts & dps & tr' & T' & TR' & G & GR & HE & ND & FQ & EP & ER).
      exists M', R', dts, dps, tr'. split; [exact T'|]. split; [exact TR'|]. split; [exact G|]. split; [exact GR|].
      split; [intros y ev [<-|I] Ty; [destruct Ty|eauto]|]. split; [now rewrite noProofs_cons|]. split; [exact FQ|]. split.
      - intros vm qts qps qr sub ret Es. cbn [dpProvider pIncl dpIncl]. rewrite (EP vm qts qps qr sub ret Es). reflexivity.
      - intros vm T0 ps rr ri sub ret F K. cbn [dpProvider pIncl dpIncl]. rewrite ER by auto. reflexivity. }
    cbn [forallb] in *. rewrite (proj2 (Z.leb_le _ _) Hv) in *. cbn [andb] in *.
    destruct (IHk (s + 1) _ a s' l (stepTs M x) (stepRoot R x) E Sm (step_trueTs M x T Hx) (step_trueRoots R x TR Hx)) as (M' & R' & dts & dps & tr' & T' & TR' & G & GR & HE & ND & FQ & EP & ER).
    pose proof (Wg x Hx) as Hgx.
    exists M', R', (usedTs M x ++ dts), ((x, [v]) :: dps), tr'. split; [exact T'|]. split; [exact TR'|]. split; [eapply grows_trans; [apply step_ts_grows|exact G]|].
    split; [eapply grows_trans; [apply step_root_grows|exact GR]|].
    split; [|split; [|split; [|split]]].
    + intros y ev [<-|I] Ty; [cbn in Ty; subst y; apply G; now apply step_ts_has|eauto].
    + split; [discriminate|]. intro N. exfalso. revert N. now apply not_noProofs.
    + constructor; [|exact FQ]. split; [exact Hx|]. split; [discriminate|]. cbn [snd]. split; repeat constructor; [intros []|]. clear -Hv Hgx. lia.
    + intros vm qts qps qr sub ret Es. cbn [dpProvider pIncl]. rewrite P_incl by auto.
      rewrite (EP vm (qts ++ usedTs M x) (qps ++ [(x, [v])]) qr sub ret) by (rewrite Es; unfold lenN; rewrite app_length; cbn; lia). cbn [addEv].
      now rewrite <- !app_assoc.
    + intros vm T0 ps rr ri sub ret F K. inversion F as [|q p0 dps0 ps0 Pp Fp]; subst. inversion K as [|q0 dps1 Kq Kt]; subst.
      cbn [dpProvider pIncl]. inversion Kq; subst. rewrite <- app_assoc, R_incl by auto. rewrite ER by auto. reflexivity.
  - cbn [honest pStop]. intros E Sm T TR. apply addEv_inv in E. destruct E as (l & E & ->). cbn [smooth] in Sm. destruct Sm as (Hx & Hb & Sm).
    cbn [observed h_n] in Hx.
    destruct (IHk _ s tr a s' l M R E Sm T TR) as (M' & R' & dts & dps & tr' & T' & TR' & G & GR & HE & ND & FQ & EP & ER).
    exists M', R', dts, dps, tr'. split; [exact T'|]. split; [exact TR'|]. split; [exact G|]. split; [exact GR|].
    split; [intros y ev [<-|I] Ty; [destruct Ty|eauto]|]. split; [now rewrite noProofs_cons|]. split; [exact FQ|]. split.
    + intros vm qts qps qr sub ret Es. cbn [dpProvider pStop hStop producedHandle]. unfold qStop. cbn [mkP d_handle q_proofs].
      rewrite (greatestAt_obs _ x) by auto.
      replace (25 <=? List.length qps)%nat with (25 <=? s) by (rewrite Es; unfold lenN; lia).
      rewrite (EP vm qts qps qr sub ret Es). reflexivity.
    + intros vm T0 ps rr ri sub ret F K. cbn [dpProvider pStop hStop receivedHandle mkR d_handle r_proofs].
      assert (Eb : (match ps with [] => true | _ => false end) = ((25 <=? s) || (v <? g x)%Z)).
      { destruct ((25 <=? s) || (v <? g x)%Z).
        - assert (dps = []) by (apply ND; now apply Hb). subst dps. now inversion F.
        - destruct ps; [|reflexivity]. inversion F; subst. symmetry. apply Hb. now apply ND. }
      rewrite Eb. rewrite ER by auto. reflexivity.
  - cbn [honest pTrack]. intros E Sm T TR. apply addEv_inv in E. destruct E as (l0 & E & ->). cbn [smooth] in Sm.
    destruct (IHk s _ a s' l0 M R E Sm T TR) as (M' & R' & dts & dps & tr' & T' & TR' & G & GR & HE & ND & FQ & EP & ER).
    exists M', R', dts, dps, tr'. split; [exact T'|]. split; [exact TR'|]. split; [exact G|]. split; [exact GR|].
    split; [intros y ev [<-|I] Ty; [destruct Ty|eauto]|]. split; [now rewrite noProofs_cons|]. split; [exact FQ|]. split.
    + intros vm qts qps qr sub ret Es. cbn [dpProvider pTrack hTrack producedHandle]. 
      change (withHandle _ _) with (mkP vm (addLadder tr x o g0 l) qts qps qr sub ret M R). rewrite (EP vm qts qps qr sub ret Es). reflexivity.
    + intros vm T0 ps rr ri sub ret F K. cbn [dpProvider pTrack hTrack receivedHandle].
      change (withHandle _ _) with (mkR vm (addLadder tr x o g0 l) (dts ++ T0) ps rr ri sub ret M R). rewrite ER by auto. reflexivity.
Qed.
End Sim.
