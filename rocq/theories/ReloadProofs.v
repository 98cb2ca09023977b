(** Proofs for ReloadProperties.v: the data provider depends only on the contents of its maps. *)
From Coq Require Import Permutation.
From Verif Require Import Base BaseProofs PrefixModel CodecModel CodecSpec AlgModel HandleModel.
Open Scope N_scope.
Local Open Scope list_scope.

Lemma mget_in {A} (m : list (N * A)) k v : NoDup (map fst m) -> (mget m k = Some v <-> In (k, v) m).
Proof.
  induction m as [|[k' v'] t IH]; cbn [mget map fst]; intro ND; [split; [discriminate|intros []]|]. inversion ND as [|? ? N1 N2]; subst.
  destruct (N.eqb_spec k k') as [->|Ne].
  - split; [intros [= ->]; now left|]. intros [[= ->]|I]; [reflexivity|]. exfalso. apply N1. apply in_map_iff. exists (k', v). auto.
  - rewrite (IH N2). split; [now right|]. intros [[= <- <-]|I]; [congruence|exact I].
Qed.
Lemma mget_none {A} (m : list (N * A)) k : mget m k = None <-> ~ In k (map fst m).
Proof.
  induction m as [|[k' v'] t IH]; cbn [mget map fst]; [split; auto|]. destruct (N.eqb_spec k k') as [->|Ne].
  - split; [discriminate|]. intro K. exfalso. apply K. now left.
  - rewrite IH. split; intros K; [intros [E|I]; [congruence|auto]|]. intro I. apply K. now right.
Qed.
Lemma mget_perm {A} (m m' : list (N * A)) k : Permutation m m' -> NoDup (map fst m) -> mget m k = mget m' k.
Proof.
  intros P ND. assert (ND' : NoDup (map fst m')) by (eapply Permutation_NoDup; [apply Permutation_map; exact P|exact ND]).
  destruct (mget m k) as [v|] eqn:E.
  - apply mget_in in E; [|exact ND]. symmetry. apply mget_in; [exact ND'|]. eapply Permutation_in; eassumption.
  - symmetry. apply mget_none. apply mget_none in E. intro I. apply E. eapply Permutation_in; [apply Permutation_map, Permutation_sym; exact P|exact I].
Qed.
Lemma perm_mget {A} (m m' : list (N * A)) : NoDup (map fst m) -> NoDup (map fst m') -> (forall k, mget m k = mget m' k) -> Permutation m m'.
Proof.
  intros ND ND' E. apply NoDup_Permutation; [apply (NoDup_map_inv _ _ ND)|apply (NoDup_map_inv _ _ ND')|].
  intros [k v]. rewrite <- (mget_in m k v ND), <- (mget_in m' k v ND'), E. reflexivity.
Qed.

(** Equal but for the order of the maps *)
Record alike {S} (d d' : dataProvider S) : Prop := {
  a_handle : d_handle d = d_handle d';
  a_subtrees : d_subtrees d = d_subtrees d';
  a_retained : forall x, mhas (d_retained d) x = mhas (d_retained d') x;
  a_ts : Permutation (d_ts d) (d_ts d');
  a_tsOnce : NoDup (map fst (d_ts d));
  a_roots : Permutation (d_roots d) (d_roots d');
  a_rootsOnce : NoDup (map fst (d_roots d)) }.

Lemma existsb_perm {A} (f : A -> bool) l l' : Permutation l l' -> existsb f l = existsb f l'.
Proof. induction 1; cbn; try congruence. now rewrite !orb_assoc, (orb_comm (f y)). Qed.

Lemma addTimestamp_alike m m' x t : Permutation m m' -> NoDup (map fst m) ->
  (exists e, addTimestamp m x t = Fail e /\ addTimestamp m' x t = Fail e) \/
  (exists n n', addTimestamp m x t = Ok n /\ addTimestamp m' x t = Ok n' /\ Permutation n n' /\ NoDup (map fst n)).
Proof.
  intros P ND. unfold addTimestamp, mhas. rewrite <- (mget_perm m m' x P ND). destruct (mget m x) as [v|] eqn:E; [left; eauto|].
  rewrite <- (existsb_perm _ _ _ P). destruct (existsb _ m); [left; eauto|]. right. do 2 eexists. split; [reflexivity|]. split; [reflexivity|]. unfold mput.
  split; [now apply perm_skip|]. cbn. constructor; [now apply mget_none|exact ND].
Qed.
Lemma addPrefixTree_alike m m' x t : Permutation m m' -> NoDup (map fst m) ->
  (exists e, addPrefixTree m x t = Fail e /\ addPrefixTree m' x t = Fail e) \/
  (exists n n', addPrefixTree m x t = Ok n /\ addPrefixTree m' x t = Ok n' /\ Permutation n n' /\ NoDup (map fst n)).
Proof.
  intros P ND. unfold addPrefixTree. rewrite <- (mget_perm m m' x P ND). destruct (mget m x) as [v|] eqn:E.
  - destruct (bytes_eqb t v); [right; eauto 10|left; eauto].
  - right. do 2 eexists. split; [reflexivity|]. split; [reflexivity|]. unfold mput. split; [now apply perm_skip|]. cbn. constructor; [now apply mget_none|exact ND].
Qed.

Section Run.
Context {S : Type}.
Variable hd : handleIf S.

Lemma withHandle_alike (d d' : dataProvider S) h : alike d d' -> alike (withHandle d h) (withHandle d' h).
Proof. intros [A1 A2 A3 A4 A5 A6 A7]. constructor; cbn; auto. Qed.

Definition both {A} (r r' : res A * dataProvider S) : Prop := fst r = fst r' /\ alike (snd r) (snd r').

Lemma dpTs_alike d d' x : alike d d' -> both (dpTs hd d x) (dpTs hd d' x).
Proof.
  intro A. pose proof A as [A1 A2 A3 A4 A5 A6 A7]. unfold dpTs. rewrite <- (mget_perm _ _ x A4 A5). destruct (mget (d_ts d) x); [split; auto|].
  rewrite <- A1. destruct (hTs hd (d_handle d) x) as [[t|e|e|] h]; cbn [both fst snd]; try (split; [reflexivity|apply withHandle_alike; exact A]).
  cbn [withHandle d_ts]. destruct (addTimestamp_alike (d_ts d) (d_ts d') x t A4 A5) as [(e & -> & ->)|(n & n' & -> & -> & P & ND)].
  - split; [reflexivity|apply withHandle_alike; exact A].
  - split; [reflexivity|]. constructor; cbn; auto.
Qed.
Lemma dpRoot_alike {A} d d' x (r : res (bytes * A)) h : alike d d' -> both (dpRoot d x r h) (dpRoot d' x r h).
Proof.
  intro A0. pose proof A0 as [A1 A2 A3 A4 A5 A6 A7]. unfold dpRoot. destruct r as [[root a]|e|e|]; try (split; [reflexivity|apply withHandle_alike; exact A0]).
  cbn [withHandle d_roots]. destruct (addPrefixTree_alike (d_roots d) (d_roots d') x root A6 A7) as [(e & -> & ->)|(n & n' & -> & -> & P & ND)].
  - split; [reflexivity|apply withHandle_alike; exact A0].
  - split; [reflexivity|]. constructor; cbn; auto.
Qed.
Ltac after_ts A x := let B := fresh in let C := fresh in
  destruct (dpTs_alike _ _ x A) as [B C];
  match type of B with fst ?p = fst ?q => destruct p as [[] ?]; destruct q as [[] ?]; cbn [fst snd] in B, C; try discriminate B; try (injection B as <-); try (split; [reflexivity|exact C]) end;
  rewrite <- (a_handle _ _ C).
Lemma dpLadder_alike d d' x v o : alike d d' -> both (dpLadder hd d x v o) (dpLadder hd d' x v o).
Proof. intro A. unfold dpLadder. after_ts A x. destruct (hLadder hd _ x v o). now apply dpRoot_alike. Qed.
Lemma dpMon_alike d d' x v : alike d d' -> both (dpMon hd d x v) (dpMon hd d' x v).
Proof. intro A. unfold dpMon. after_ts A x. destruct (hMon hd _ x v). now apply dpRoot_alike. Qed.
Lemma dpIncl_alike d d' x vs : alike d d' -> both (dpIncl hd d x vs) (dpIncl hd d' x vs).
Proof. intro A. unfold dpIncl. destruct vs as [|v vs]; [split; auto|]. after_ts A x. destruct (hIncl hd _ x _). now apply dpRoot_alike. Qed.

Lemma run_alike {A} (p : prog A) : forall d d', alike d d' ->
  result (run (dpProvider hd) p d) = result (run (dpProvider hd) p d') /\ alike (final (run (dpProvider hd) p d)) (final (run (dpProvider hd) p d')).
Proof.
  assert (Ev : forall (e e' : event) (r r' : res A * dataProvider S * list event), result r = result r' /\ alike (final r) (final r') ->
    result (addEv e r) = result (addEv e' r') /\ alike (final (addEv e r)) (final (addEv e' r'))).
  { intros e e' [[r s] l] [[r' s'] l']. cbn. auto. }
  induction p as [a|m|m| |x k IH e IHe|x v o k IH e IHe|x v k IH e IHe|x v k IH e IHe|x v k IH|x o g l k IH]; intros d d' Al; cbn [run]; try (split; [reflexivity|exact Al]).
  - destruct (dpTs_alike d d' x Al) as [B C]. cbn [dpProvider pTs]. destruct (dpTs hd d x) as [r s], (dpTs hd d' x) as [r' s']. cbn [fst snd] in B, C. subst r'. apply Ev. destruct r; auto.
  - destruct (dpLadder_alike d d' x v o Al) as [B C]. cbn [dpProvider pLadder]. destruct (dpLadder hd d x v o) as [r s], (dpLadder hd d' x v o) as [r' s']. cbn [fst snd] in B, C. subst r'. apply Ev. destruct r; auto.
  - destruct (dpMon_alike d d' x v Al) as [B C]. cbn [dpProvider pMon]. destruct (dpMon hd d x v) as [r s], (dpMon hd d' x v) as [r' s']. cbn [fst snd] in B, C. subst r'. apply Ev. destruct r; auto.
  - destruct (dpIncl_alike d d' x v Al) as [B C]. cbn [dpProvider pIncl]. destruct (dpIncl hd d x v) as [r s], (dpIncl hd d' x v) as [r' s']. cbn [fst snd] in B, C. subst r'. apply Ev. destruct r; auto.
  - cbn [dpProvider pStop]. rewrite <- (a_handle _ _ Al). apply Ev. apply IH. exact Al.
  - cbn [dpProvider pTrack]. apply Ev. apply IH. rewrite <- (a_handle _ _ Al). apply withHandle_alike. exact Al.
Qed.

(** ** The entries inspected *)

Lemma nsort_perm l l' : Permutation l l' -> nsort l = nsort l'.
Proof.
  assert (C : forall x y l, ninsert x (ninsert y l) = ninsert y (ninsert x l)).
  { intros x y t. induction t as [|z t IH]; cbn.
    - destruct (N.leb_spec x y), (N.leb_spec y x); try reflexivity; try lia. assert (x = y) by lia. subst. reflexivity.
    - destruct (N.leb_spec y z), (N.leb_spec x z); cbn;
        repeat match goal with |- context[?a <=? ?b] => destruct (N.leb_spec a b); cbn end; try lia; try congruence.
      all: try (assert (x = y) by lia; subst; reflexivity). }
  induction 1; cbn; auto; [|congruence]. unfold nsort in IHPermutation. now rewrite IHPermutation.
Qed.
Lemma filter_perm {A} (f g : A -> bool) l l' : (forall x, f x = g x) -> Permutation l l' -> Permutation (filter f l) (filter g l').
Proof.
  intros E P. rewrite <- (filter_ext f g E l'). induction P; cbn.
  - constructor.
  - destruct (f x); [now apply perm_skip|exact IHP].
  - destruct (f x), (f y); try apply Permutation_refl. apply perm_swap.
  - eapply perm_trans; eassumption.
Qed.
Lemma fillRoots_alike xs : forall m m' new k, (forall k, mget m k = mget m' k) -> mget (fillRoots m xs new) k = mget (fillRoots m' xs new) k.
Proof.
  induction xs as [|x t IH]; intros m m' new k E; cbn; [apply E|]. destruct new as [|r new]; [apply E|]. apply IH. intros k0. unfold mput. cbn. destruct (k0 =? x); auto.
Qed.

Lemma inspected_alike d d' : alike d d' ->
  fst (inspectedLeaves hd d) = fst (inspectedLeaves hd d') /\ d_handle (snd (inspectedLeaves hd d)) = d_handle (snd (inspectedLeaves hd d')) /\
  d_subtrees (snd (inspectedLeaves hd d)) = d_subtrees (snd (inspectedLeaves hd d')) /\
  (forall k, mget (d_ts (snd (inspectedLeaves hd d))) k = mget (d_ts (snd (inspectedLeaves hd d'))) k) /\
  (forall k, mget (d_roots (snd (inspectedLeaves hd d))) k = mget (d_roots (snd (inspectedLeaves hd d'))) k).
Proof.
  intros [A1 A2 A3 A4 A5 A6 A7]. unfold inspectedLeaves.
  assert (L : nsort (filter (fun x => negb (mhas (d_retained d) x)) (map fst (d_ts d))) = nsort (filter (fun x => negb (mhas (d_retained d') x)) (map fst (d_ts d')))).
  { apply nsort_perm, filter_perm; [intro x; now rewrite A3|now apply Permutation_map]. }
  assert (Em : forall l, filter (fun x => negb (mhas (d_roots d) x)) l = filter (fun x => negb (mhas (d_roots d') x)) l).
  { intro l. apply filter_ext. intro x. unfold mhas. now rewrite (mget_perm _ _ x A6 A7). }
  rewrite <- L, <- Em, <- A1. set (leaves := nsort _). set (em := filter _ leaves).
  assert (T : forall k, mget (d_ts d) k = mget (d_ts d') k) by (intro k; now apply mget_perm).
  assert (R : forall k, mget (d_roots d) k = mget (d_roots d') k) by (intro k; now apply mget_perm).
  destruct (hRoots hd (d_handle d) em) as [[ps|e|e|] h]; cbn [fst snd withHandle d_handle d_subtrees d_ts d_roots]; auto.
  destruct (negb _); cbn [fst snd withHandle withRoots d_handle d_subtrees d_ts d_roots]; auto. repeat split; auto. intro k. now apply fillRoots_alike.
Qed.
End Run.

(** ** What the client starts with *)

Definition inOrder (e e' : N * logEntry) : Prop :=
  (fst e < fst e' -> le_ts (snd e) <= le_ts (snd e')) /\ (fst e' < fst e -> le_ts (snd e') <= le_ts (snd e)).

Definition tsOf (l : list (N * logEntry)) : list (N * N) := map (fun e => (fst e, le_ts (snd e))) l.
Definition rootsOf (l : list (N * logEntry)) : list (N * bytes) := map (fun e => (fst e, le_root (snd e))) l.
Definition startWith {S} (h : S) subtrees entries (l : list (N * logEntry)) : dataProvider S :=
  {| d_handle := h; d_subtrees := subtrees; d_retained := entries; d_ts := tsOf l; d_roots := rootsOf l |}.

Lemma keys_ts l : map fst (tsOf l) = map fst l.
Proof. unfold tsOf. rewrite map_map. reflexivity. Qed.
Lemma keys_roots l : map fst (rootsOf l) = map fst l.
Proof. unfold rootsOf. rewrite map_map. reflexivity. Qed.

Lemma ts_existsb x t l : existsb (fun e => (x <? fst e) && (snd e <? t) || (fst e <? x) && (t <? snd e)) (tsOf l) = false <->
  forall r, forall e, In e l -> inOrder (x, {| le_ts := t; le_root := r |}) e.
Proof.
  split.
  - intros E r e I. split; intros K; cbn [fst snd le_ts] in *.
    + destruct (N.leb_spec t (le_ts (snd e))); [assumption|]. exfalso. assert (existsb (fun e => (x <? fst e) && (snd e <? t) || (fst e <? x) && (t <? snd e)) (tsOf l) = true); [|congruence].
      apply existsb_exists. exists (fst e, le_ts (snd e)). split; [unfold tsOf; apply in_map_iff; eauto|]. cbn. apply orb_true_iff. left. apply andb_true_iff. split; apply N.ltb_lt; lia.
    + destruct (N.leb_spec (le_ts (snd e)) t); [assumption|]. exfalso. assert (existsb (fun e => (x <? fst e) && (snd e <? t) || (fst e <? x) && (t <? snd e)) (tsOf l) = true); [|congruence].
      apply existsb_exists. exists (fst e, le_ts (snd e)). split; [unfold tsOf; apply in_map_iff; eauto|]. cbn. apply orb_true_iff. right. apply andb_true_iff. split; apply N.ltb_lt; lia.
  - intros F. destruct (existsb _ (tsOf l)) eqn:E; [|reflexivity]. exfalso. apply existsb_exists in E. destruct E as ([p u] & I & K). unfold tsOf in I. apply in_map_iff in I.
    destruct I as (e & [= <- <-] & I). destruct (F [] e I) as [F1 F2]. cbn [fst snd le_ts] in *. apply orb_true_iff in K.
    destruct K as [K|K]; apply andb_true_iff in K; destruct K as [K1 K2]; apply N.ltb_lt in K1, K2; [specialize (F1 K1)|specialize (F2 K1)]; lia.
Qed.

Lemma addRetained_ok {S} (h : S) subtrees entries l : forall done d, NoDup (map fst (done ++ l)) ->
  (foldM (fun d e =>
    let* ts := addTimestamp (d_ts d) (fst e) (le_ts (snd e)) in
    let* rs := addPrefixTree (d_roots d) (fst e) (le_root (snd e)) in
    Ok (withRoots (withTs d ts) rs)) l (startWith h subtrees entries (rev done)) = Ok d <->
  d = startWith h subtrees entries (rev (done ++ l)) /\ ForallOrdPairs inOrder l /\ forall e e', In e l -> In e' done -> inOrder e e').
Proof.
  induction l as [|[x en] t IH]; intros done d ND; cbn [foldM].
  - rewrite app_nil_r. split; [intros [= <-]; split; [reflexivity|split; [constructor|intros ? ? []]]|]. intros (-> & _). reflexivity.
  - assert (Nx : ~ In x (map fst (rev done))).
    { rewrite map_app in ND. cbn in ND. apply NoDup_remove_2 in ND. intro I. apply ND. apply in_or_app. left. rewrite map_rev in I. now apply in_rev. }
    cbn [startWith d_ts d_roots fst snd]. unfold addTimestamp at 1, addPrefixTree at 1, mhas.
    rewrite (proj2 (mget_none (tsOf (rev done)) x)) by (rewrite keys_ts; exact Nx). rewrite (proj2 (mget_none (rootsOf (rev done)) x)) by (rewrite keys_roots; exact Nx).
    destruct (existsb _ (tsOf (rev done))) eqn:Ex; cbn [bind].
    + split; [discriminate|]. intros (_ & _ & F). exfalso. assert (K : existsb (fun e => (x <? fst e) && (snd e <? le_ts en) || (fst e <? x) && (le_ts en <? snd e)) (tsOf (rev done)) = false); [|congruence].
      apply ts_existsb. intros r e I. apply in_rev in I. destruct (F (x, en) e (or_introl eq_refl) I) as [F1 F2]. split; [exact F1|exact F2].
    + replace (withRoots _ _) with (startWith h subtrees entries (rev (done ++ [(x, en)]))) by (rewrite rev_app_distr; reflexivity).
      rewrite (IH (done ++ [(x, en)])) by (rewrite <- app_assoc; exact ND). rewrite <- app_assoc. cbn [app].
      pose proof (proj1 (ts_existsb _ _ _) Ex (le_root en)) as Ex'.
      split; intros (-> & F & G); split; try reflexivity; (split; [|]).
      * constructor; [|exact F]. apply Forall_forall. intros e I. destruct (G e (x, en) I) as [G1 G2]; [apply in_or_app; right; now left|]. split; assumption.
      * intros e e' [<-|I] I'; [|apply G; [exact I|apply in_or_app; now left]]. destruct (Ex' e') as [G1 G2]; [now apply -> in_rev|]. split; assumption.
      * now inversion F.
      * intros e e' I I'. apply in_app_or in I'. destruct I' as [I'|[<-|[]]]; [apply G; [now right|exact I']|]. inversion F as [|? ? F1 F2]; subst.
        rewrite Forall_forall in F1. destruct (F1 e I) as [F3 F4]. split; assumption.
Qed.

Lemma inOrder_sym e e' : inOrder e e' -> inOrder e' e.
Proof. intros [A B]. split; assumption. Qed.
Lemma inOrder_perm l l' : Permutation l l' -> ForallOrdPairs inOrder l -> ForallOrdPairs inOrder l'.
Proof.
  induction 1; intro F; auto.
  - inversion F; subst. constructor; [eapply Permutation_Forall; eassumption|auto].
  - inversion F as [|? ? F1 F2]; subst. inversion F2 as [|? ? F3 F4]; subst. inversion F1; subst. constructor; [constructor; [now apply inOrder_sym|exact F3]|]. constructor; assumption.
Qed.

Lemma addRetained_alike {S} (h : S) subtrees l l' d : Permutation l l' -> NoDup (map fst l) -> addRetained (newDataProvider h) subtrees l = Ok d ->
  exists d', addRetained (newDataProvider h) subtrees l' = Ok d' /\ alike d d'.
Proof.
  intros P ND E. assert (ND' : NoDup (map fst l')) by (eapply Permutation_NoDup; [apply Permutation_map; exact P|exact ND]).
  unfold addRetained in *. cbn [newDataProvider d_handle d_ts d_roots] in *.
  pose proof (proj1 (addRetained_ok h subtrees l l [] d ND) E) as (-> & F & _). cbn [app].
  exists (startWith h subtrees l' (rev l')). split.
  - apply (addRetained_ok h subtrees l' l' []); [exact ND'|]. split; [reflexivity|]. split; [eapply inOrder_perm; eassumption|intros ? ? ? []].
  - assert (Pr : Permutation (rev l) (rev l')). { rewrite <- !Permutation_rev. exact P. }
    assert (NDr : NoDup (map fst (rev l))) by (rewrite map_rev; apply NoDup_rev; exact ND).
    constructor; cbn; auto.
    + intro x. unfold mhas. now rewrite (mget_perm l l' x P ND).
    + unfold tsOf. now apply Permutation_map.
    + now rewrite keys_ts.
    + unfold rootsOf. now apply Permutation_map.
    + now rewrite keys_roots.
Qed.

Lemma addRetained_either {S} (h : S) subtrees l : NoDup (map fst l) ->
  (exists d, addRetained (newDataProvider h) subtrees l = Ok d) \/ addRetained (newDataProvider h) subtrees l = Fail "timestamps are not monotonic".
Proof.
  intro ND. unfold addRetained. cbn [newDataProvider d_handle d_ts d_roots].
  assert (G : forall l done entries, NoDup (map fst (done ++ l)) -> (exists d, foldM (fun d e =>
    let* ts := addTimestamp (d_ts d) (fst e) (le_ts (snd e)) in
    let* rs := addPrefixTree (d_roots d) (fst e) (le_root (snd e)) in
    Ok (withRoots (withTs d ts) rs)) l (startWith h subtrees entries (rev done)) = Ok d) \/ foldM (fun d e =>
    let* ts := addTimestamp (d_ts d) (fst e) (le_ts (snd e)) in
    let* rs := addPrefixTree (d_roots d) (fst e) (le_root (snd e)) in
    Ok (withRoots (withTs d ts) rs)) l (startWith h subtrees entries (rev done)) = Fail "timestamps are not monotonic"); [|exact (G l [] l ND)].
  clear ND l. induction l as [|[x en] t IH]; intros done entries ND; cbn [foldM]; [left; eauto|].
  assert (Nx : ~ In x (map fst (rev done))).
  { rewrite map_app in ND. cbn in ND. apply NoDup_remove_2 in ND. intro I. apply ND. apply in_or_app. left. rewrite map_rev in I. now apply in_rev. }
  cbn [startWith d_ts d_roots fst snd]. unfold addTimestamp at 1 3, addPrefixTree at 1 3, mhas.
  rewrite (proj2 (mget_none (tsOf (rev done)) x)) by (rewrite keys_ts; exact Nx). rewrite (proj2 (mget_none (rootsOf (rev done)) x)) by (rewrite keys_roots; exact Nx).
  destruct (existsb _ (tsOf (rev done))) eqn:Ex; cbn [bind]; [now right|].
  replace (withRoots _ _) with (startWith h subtrees entries (rev (done ++ [(x, en)]))) by (rewrite rev_app_distr; reflexivity).
  apply IH. rewrite <- app_assoc. exact ND.
Qed.
