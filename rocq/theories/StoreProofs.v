(** Proofs about the LevelDB-backed store. *)
From Coq Require Import Sorted.
From Verif Require Import Base BaseProofs PrefixModel PrefixCodecProofs StoreModel StoreSpec.
Open Scope N_scope.
Local Open Scope list_scope.

(** ** Keys *)

Lemma digit_lt n m : n < 16 -> m < 16 -> digit n = digit m -> n = m.
Proof.
  intros Hn Hm E. apply (f_equal b2n) in E. unfold digit in E.
  destruct (n <? 10) eqn:A; destruct (m <? 10) eqn:B; rewrite !b2n_n2b in E; lia.
Qed.

Definition isDigit (b : byte) : Prop := exists n, n < 16 /\ b = digit n.

Lemma digit_range n : n < 16 -> 48 <= b2n (digit n) <= 102 /\ b2n (digit n) <> 58.
Proof.
  intros H. unfold digit. destruct (n <? 10) eqn:A; rewrite b2n_n2b; lia.
Qed.

Lemma isDigit_ne b c : isDigit b -> (b2n c < 48 \/ 102 < b2n c \/ b2n c = 58) -> b <> c.
Proof. intros (n & Hn & ->) H E. destruct (digit_range n Hn). rewrite E in *. lia. Qed.

Lemma hexBytes_digits l : Forall isDigit (hexBytes l).
Proof.
  induction l as [|b l IH]; cbn; [constructor|].
  pose proof (b2n_lt b). constructor; [|constructor; [|exact IH]]; eexists; (split; [|reflexivity]); lia.
Qed.

Lemma hexBytes_inj a : forall b, hexBytes a = hexBytes b -> a = b.
Proof.
  induction a as [|x a IH]; intros [|y b] E; cbn in E; try discriminate; [reflexivity|].
  injection E as E1 E2 E3.
  pose proof (b2n_lt x). pose proof (b2n_lt y).
  apply digit_lt in E1; [|lia|lia]. apply digit_lt in E2; [|lia|lia].
  f_equal; [|apply IH, E3]. apply b2n_inj. lia.
Qed.

Lemma digitsF_digits f : forall base n, base <= 16 -> 1 < base -> n < 2 ^ N.of_nat f \/ n < base -> Forall isDigit (digitsF f base n).
Proof.
  induction f as [|f IH]; intros base n Hb Hb' H; cbn [digitsF].
  - constructor; [|constructor]. exists n. split; [|reflexivity]. cbn in H. lia.
  - destruct (n <? base) eqn:E.
    + constructor; [|constructor]. exists n. split; [lia|reflexivity].
    + apply Forall_app. split.
      * apply IH; [lia|lia|]. left. destruct H as [H|H]; [|lia].
        rewrite Nat2N.inj_succ, N.pow_succ_r' in H.
        apply N.div_lt_upper_bound; [lia|]. nia.
      * constructor; [|constructor]. eexists; split; [|reflexivity].
        pose proof (N.mod_lt n base). lia.
Qed.

Lemma digitsF_inj f : forall g base n m, base <= 16 -> 1 < base ->
  n < 2 ^ N.of_nat f \/ n < base -> m < 2 ^ N.of_nat g \/ m < base -> digitsF f base n = digitsF g base m -> n = m.
Proof.
  assert (NE : forall f base n, digitsF f base n <> []).
  { intros [|k] base n; cbn [digitsF]; [discriminate|]. destruct (n <? base); [discriminate|]. destruct (digitsF k base (n / base)); discriminate. }
  assert (ONE : forall f base n d, digitsF f base n = [d] -> (f <> O -> n < base) /\ d = digit n).
  { intros [|k] base n d E; cbn [digitsF] in E; [split; [lia|congruence]|]. destruct (n <? base) eqn:A.
    - split; [lia|congruence].
    - destruct (digitsF k base (n / base)) as [|? l] eqn:D; [now apply NE in D|]. cbn in E. destruct l; discriminate. }
  assert (SM : forall f base n, n < base -> digitsF f base n = [digit n]).
  { intros [|k] base n L; cbn [digitsF]; [reflexivity|]. destruct (n <? base) eqn:A; [reflexivity|lia]. }
  induction f as [|f IH]; intros g base n m Hb Hb' Hn Hm E.
  - cbn [digitsF] in E. symmetry in E. apply ONE in E. destruct E as [A B].
    assert (n < base) by (cbn in Hn; lia). assert (m < base) by (destruct g; [cbn in Hm; lia|apply A; discriminate]).
    apply digit_lt in B; lia.
  - destruct g as [|g].
    + change (digitsF 0 base m) with [digit m] in E. apply ONE in E. destruct E as [A B].
      assert (m < base) by (cbn in Hm; lia). assert (n < base) by (apply A; discriminate).
      apply digit_lt in B; lia.
    + destruct (n <? base) eqn:A; destruct (m <? base) eqn:B.
      * cbn [digitsF] in E. rewrite A, B in E. injection E as E. apply digit_lt in E; lia.
      * rewrite (SM (S f) base n) in E by lia. symmetry in E. apply ONE in E. destruct E as [E _]. specialize (E ltac:(discriminate)). lia.
      * rewrite (SM (S g) base m) in E by lia. apply ONE in E. destruct E as [E _]. specialize (E ltac:(discriminate)). lia.
      * cbn [digitsF] in E. rewrite A, B in E. apply app_inj_tail in E. destruct E as [E1 E2].
        apply IH in E1; [|lia|lia| |].
        -- apply digit_lt in E2; [|pose proof (N.mod_lt n base); lia|pose proof (N.mod_lt m base); lia].
           rewrite (N.div_mod n base), (N.div_mod m base) by lia. congruence.
        -- left. destruct Hn as [H|H]; [|lia]. rewrite Nat2N.inj_succ, N.pow_succ_r' in H. apply N.div_lt_upper_bound; [lia|nia].
        -- left. destruct Hm as [H|H]; [|lia]. rewrite Nat2N.inj_succ, N.pow_succ_r' in H. apply N.div_lt_upper_bound; [lia|nia].
Qed.

Lemma size_nat_bound n : n < 2 ^ N.of_nat (N.size_nat n).
Proof.
  destruct n as [|p]; [reflexivity|]. change (N.size_nat (N.pos p)) with (Pos.size_nat p).
  induction p as [p IH|p IH|]; cbn [Pos.size_nat]; rewrite ?Nat2N.inj_succ, ?N.pow_succ_r'; [lia|lia|reflexivity].
Qed.

Lemma digits_inj base n m : base <= 16 -> 1 < base -> digits base n = digits base m -> n = m.
Proof. intros A B E. apply (digitsF_inj _ _ base n m A B) in E; [exact E| |]; left; apply size_nat_bound. Qed.
Lemma digits_digits base n : base <= 16 -> 1 < base -> Forall isDigit (digits base n).
Proof. intros A B. apply digitsF_digits; [exact A|exact B|]. left. apply size_nat_bound. Qed.
Lemma digits_nonempty base n : digits base n <> [].
Proof. unfold digits. destruct (N.size_nat n); cbn [digitsF]; [discriminate|]. destruct (n <? base); [discriminate|]. now destruct (digitsF n0 base (n / base)). Qed.

(** Two digit strings followed by a separator. *)
Lemma sep_inj (c : byte) : ~ isDigit c -> forall a b a' b', Forall isDigit a -> Forall isDigit a' -> a ++ c :: b = a' ++ c :: b' -> a = a' /\ b = b'.
Proof.
  intros Hc. induction a as [|x a IH]; intros b [|y a'] b' Ha Ha' E; cbn in E.
  - split; [reflexivity|congruence].
  - injection E as -> _. inversion Ha'; contradiction.
  - injection E as <- _. inversion Ha; contradiction.
  - injection E as <- E. inversion Ha; inversion Ha'; subst. destruct (IH b a' b') as [-> ->]; auto.
Qed.

Lemma colon_sep : ~ isDigit ":"%byte.
Proof. intros H. refine (isDigit_ne _ ":"%byte H _ eq_refl). right. right. reflexivity. Qed.

Theorem dbKey_inj o o' : dbKey o = dbKey o' -> o = o'.
Proof.
  assert (T : forall pos, leveldbTreeHeadKey <> str "t" ++ digits 10 pos).
  { intros pos E. change leveldbTreeHeadKey with (str "t" ++ str "ree-head") in E. apply app_inv_head in E.
    pose proof (digits_digits 10 pos ltac:(lia) ltac:(lia)) as D. rewrite <- E in D. inversion D as [|b t B _]; subst.
    refine (isDigit_ne _ "r"%byte B _ eq_refl). right. left. reflexivity. }
  destruct o as [| |l|l v|p|p|[a b]], o' as [| |l'|l' v'|p'|p'|[a' b']]; cbn [dbKey]; intros E;
    try reflexivity; try (exfalso; cbn in E; discriminate E).
  - exfalso. apply (T _ E).
  - apply app_inv_head, hexBytes_inj in E. congruence.
  - apply app_inv_head in E. apply (sep_inj _ colon_sep) in E; [|apply hexBytes_digits|apply hexBytes_digits].
    destruct E as [E F]. apply hexBytes_inj in E. apply digits_inj in F; [|lia|lia]. congruence.
  - exfalso. symmetry in E. apply (T _ E).
  - apply app_inv_head, digits_inj in E; [congruence|lia|lia].
  - apply app_inv_head, digits_inj in E; [congruence|lia|lia].
  - apply app_inv_head in E. cbn [fst snd] in E. apply (sep_inj _ colon_sep) in E; [|apply digits_digits; lia|apply digits_digits; lia].
    destruct E as [E F]. apply digits_inj in E; [|lia|lia]. apply digits_inj in F; [|lia|lia]. congruence.
Qed.

(** ** The connection *)

Lemma bget_bput {A} (m : list (bytes * A)) k v k' : bget (bput m k v) k' = if bytes_eqb k' k then Some v else bget m k'.
Proof. reflexivity. Qed.

Lemma bget_bdel {A} (m : list (bytes * A)) k k' : bget (bdel m k) k' = if bytes_eqb k' k then None else bget m k'.
Proof.
  unfold bdel. induction m as [|[a v] m IH]; cbn [filter bget fst]; [now destruct (bytes_eqb k' k)|].
  destruct (bytes_eqb k a) eqn:E; cbn [negb].
  - apply bytes_eqb_eq in E. subst a. rewrite IH. now destruct (bytes_eqb k' k).
  - cbn [bget]. rewrite IH. destruct (bytes_eqb k' a) eqn:F; [|reflexivity]. apply bytes_eqb_eq in F. subst a.
    destruct (bytes_eqb k' k) eqn:G; [|reflexivity]. apply bytes_eqb_eq in G. subst. now rewrite bytes_eqb_refl in E.
Qed.

Lemma bytes_eqb_sym a b : bytes_eqb a b = bytes_eqb b a.
Proof.
  destruct (bytes_eqb a b) eqn:E; symmetry; [apply bytes_eqb_eq; apply bytes_eqb_eq in E; auto|].
  apply bytes_eqb_neq. apply bytes_eqb_neq in E. auto.
Qed.

Lemma existsb_bytes k l : existsb (bytes_eqb k) l = true <-> In k l.
Proof.
  rewrite existsb_exists. split.
  - intros (x & H & E). apply bytes_eqb_eq in E. congruence.
  - intros H. exists k. split; [exact H|apply bytes_eqb_refl].
Qed.

Lemma batchEntries_get seen b k : bget (batchEntries seen b) k = if existsb (bytes_eqb k) seen then None else bget b k.
Proof.
  revert seen. induction b as [|[a v] b IH]; intros seen; cbn [batchEntries bget]; [now destruct (existsb _ seen)|].
  destruct (existsb (bytes_eqb a) seen) eqn:E; [|cbn [bget]]; rewrite IH.
  - destruct (existsb (bytes_eqb k) seen) eqn:F; [reflexivity|]. destruct (bytes_eqb k a) eqn:G; [|reflexivity].
    apply bytes_eqb_eq in G. subst. congruence.
  - cbn [existsb]. destruct (bytes_eqb k a) eqn:G; cbn [orb]; [|reflexivity].
    apply bytes_eqb_eq in G. subst. now rewrite E.
Qed.

Lemma batchEntries_keys seen b : NoDup (map fst (batchEntries seen b)) /\ forall k, In k (map fst (batchEntries seen b)) -> ~ In k seen.
Proof.
  revert seen. induction b as [|[a v] b IH]; intros seen; cbn [batchEntries]; [split; [constructor|intros k []]|].
  destruct (existsb (bytes_eqb a) seen) eqn:E; [apply IH|]. destruct (IH (a :: seen)) as [A B]. cbn [map fst]. split.
  - constructor; [|exact A]. intros F. apply (B _ F). now left.
  - intros k [<-|F] G; [|apply (B _ F); now right]. apply existsb_bytes in G. congruence.
Qed.

Lemma writeBatch_get d b k : bget (writeBatch d b) k =
  if bytes_eqb k leveldbTreeHeadKey then bget d k else
  match bget b k with Some v => v | None => bget d k end.
Proof.
  unfold writeBatch. rewrite <- (batchEntries_get [] b k : bget (batchEntries [] b) k = bget b k).
  pose proof (proj1 (batchEntries_keys [] b)) as ND. revert d ND. generalize (batchEntries [] b) as l. clear b.
  induction l as [|[a v] l IH]; intros d ND; cbn [fold_left bget fst snd]; [now destruct (bytes_eqb k _)|].
  inversion ND as [|? ? N1 N2]; subst. rewrite IH by exact N2. clear IH.
  assert (G : bytes_eqb k a = true -> bget l k = None).
  { intros E. apply bytes_eqb_eq in E. subst a. clear -N1. induction l as [|[x y] l IH]; [reflexivity|]. cbn [bget map fst] in *.
    destruct (bytes_eqb k x) eqn:E; [apply bytes_eqb_eq in E; subst; exfalso; apply N1; now left|]. apply IH. intros F. apply N1. now right. }
  destruct (bytes_eqb k leveldbTreeHeadKey) eqn:T.
  - apply bytes_eqb_eq in T. subst k. destruct (bytes_eqb a leveldbTreeHeadKey) eqn:S; [reflexivity|].
    destruct v as [v|]; rewrite ?bget_bput, ?bget_bdel, (bytes_eqb_sym _ a), S; reflexivity.
  - destruct (bytes_eqb k a) eqn:E.
    + rewrite (G eq_refl). apply bytes_eqb_eq in E. subst a. rewrite T. destruct v as [v|]; rewrite ?bget_bput, ?bget_bdel, bytes_eqb_refl; reflexivity.
    + destruct (bget l k); [reflexivity|]. destruct (bytes_eqb a leveldbTreeHeadKey); [reflexivity|].
      destruct v as [v|]; rewrite ?bget_bput, ?bget_bdel, E; reflexivity.
Qed.

Lemma commit_get c c' k : (forall v, bget (c_batch c) leveldbTreeHeadKey = Some v -> v <> None) ->
  connCommit c = Ok c' -> bget (c_conn c') k = connGet c k /\ c_batch c' = [] /\ c_readonly c' = c_readonly c.
Proof.
  intros TH E. unfold connCommit in E. destruct (c_readonly c) eqn:R; [discriminate|]. injection E as <-. cbn [c_conn c_batch c_readonly].
  split; [|auto]. unfold commitSteps, connGet.
  pose proof (writeBatch_get (c_conn c) (c_batch c) k) as W.
  destruct (bget (c_batch c) leveldbTreeHeadKey) as [v|] eqn:B; cbn [List.last].
  - destruct v as [v|]; [|now specialize (TH _ eq_refl)].
    rewrite bget_bput, W. destruct (bytes_eqb k leveldbTreeHeadKey) eqn:T; [|reflexivity].
    apply bytes_eqb_eq in T. subst. now rewrite B.
  - rewrite W. destruct (bytes_eqb k leveldbTreeHeadKey) eqn:T; [|reflexivity].
    apply bytes_eqb_eq in T. subst. now rewrite B.
Qed.

(** ** Refinement *)

Definition related (c : ldbConn) (s : specStore) : Prop :=
  c_readonly c = false /\ (forall v, bget (c_batch c) leveldbTreeHeadKey = Some v -> v <> None) /\ (forall o, shown c o = s_pending s o) /\ (forall o, onDisk (c_conn c) o = s_durable s o).

Lemma read_ext (m m' : contentsOf) r : (forall o, m o = m' o) -> specRead m r = specRead m' r.
Proof.
  intros E. destruct r; cbn [specRead]; rewrite ?E; try reflexivity; f_equal; unfold look;
    first [apply map_ext; intros; now rewrite E | apply flat_map_ext; intros; now rewrite E].
Qed.

Lemma storeRead_shown c r : storeRead c r = specRead (shown c) r.
Proof. destruct r; reflexivity. Qed.

Lemma connPut_shown c o v c' : connPut c (dbKey o) v = Ok c' -> forall o', shown c' o' = setObj (shown c) o v o'.
Proof.
  unfold connPut. destruct (c_readonly c); [discriminate|]. intros E. injection E as <-. intros o'. unfold shown, connGet, setObj. cbn [c_batch c_conn].
  rewrite bget_bput. destruct (bytes_eqb (dbKey o') (dbKey o)) eqn:K.
  - apply bytes_eqb_eq, dbKey_inj in K. subst o'. now destruct (object_eq_dec o o).
  - destruct (object_eq_dec o o') as [->|]; [now rewrite bytes_eqb_refl in K|reflexivity].
Qed.

Lemma related_put c s o v : related c s -> (o = OTreeHead -> v <> None) ->
  exists c', connPut c (dbKey o) v = Ok c' /\ related c' {| s_pending := setObj (s_pending s) o v; s_durable := s_durable s |}.
Proof.
  intros (R & TH & P & D) G. unfold connPut. rewrite R. eexists. split; [reflexivity|]. repeat split.
  - cbn [c_batch]. intros w. rewrite bget_bput. destruct (bytes_eqb leveldbTreeHeadKey (dbKey o)) eqn:K; [|apply TH].
    apply bytes_eqb_eq in K. change leveldbTreeHeadKey with (dbKey OTreeHead) in K. apply dbKey_inj in K. intros [= <-]. apply G. auto.
  - intros o'. cbn [s_pending]. assert (X : connPut c (dbKey o) v = Ok {| c_conn := c_conn c; c_readonly := false; c_batch := bput (c_batch c) (dbKey o) v |}) by (unfold connPut; now rewrite R).
    rewrite (connPut_shown _ _ _ _ X). unfold setObj. now rewrite P.
  - exact D.
Qed.

Lemma related_commit c s : related c s ->
  exists c', connCommit c = Ok c' /\ related c' {| s_pending := s_pending s; s_durable := s_pending s |}.
Proof.
  intros (R & TH & P & D). destruct (connCommit c) as [c'|m|m|] eqn:E; try (unfold connCommit in E; rewrite R in E; discriminate).
  exists c'. split; [reflexivity|].
  assert (G : forall k, bget (c_conn c') k = connGet c k /\ c_batch c' = [] /\ c_readonly c' = c_readonly c) by (intros k; apply commit_get; assumption).
  destruct (G []) as (_ & B & R'). split; [congruence|]. split; [rewrite B; discriminate|].
  split; intros o; cbn [s_pending s_durable].
  - unfold shown, connGet at 1. rewrite B. cbn [bget]. rewrite (proj1 (G _)). apply P.
  - unfold onDisk. rewrite (proj1 (G _)). apply P.
Qed.

Theorem store_refines : forall ops c s, related c s -> Forall proper ops ->
  exists c', runStore c ops = Ok (fst (specRun s ops), c') /\ related c' (snd (specRun s ops)).
Proof.
  induction ops as [|op ops IH]; intros c s Rel F; cbn [runStore specRun].
  - exists c. split; [reflexivity|exact Rel].
  - inversion F as [|? ? P1 P2]; subst.
    assert (STEP : exists c1, match op with
                      | SRead r => Ok ([storeRead c r], c)
                      | SWrite w => let* c' := storePut c w in Ok ([], c')
                      | SDelete d => let* c' := storeDelete c d in Ok ([], c')
                      | SCommit => let* c' := connCommit c in Ok ([], c')
                      | SReopen => Ok ([], newLDBConn (c_conn c) false)
                      | SClone rs => Ok (map (storeRead (newLDBConn (c_conn c) true)) rs, c)
                      end = Ok (fst (specStep s op), c1) /\ related c1 (snd (specStep s op))).
    { destruct op as [r|w|d| | |rs]; cbn [specStep fst snd].
      - exists c. split; [|exact Rel]. rewrite storeRead_shown. do 2 f_equal. f_equal. apply read_ext. apply Rel.
      - cbn [proper] in P1. destruct w as [v|v|l v|l k v|k v|k v|k v]; cbn [writtenObj fst snd storePut] in *;
          (destruct v as [v|]; [|contradiction]);
          match goal with |- context [setObj _ ?o ?v] =>
            destruct (related_put c s o v Rel ltac:(discriminate)) as (c1 & E1 & R1) end;
          unfold notNil, of_opt; cbn [bind]; rewrite E1; exists c1; split; [reflexivity|exact R1|..];
          try reflexivity; exact R1.
      - destruct d as [l|l k|k|k|k]; cbn [deletedObj storeDelete];
          match goal with |- context [setObj _ ?o ?v] =>
            destruct (related_put c s o v Rel ltac:(discriminate)) as (c1 & E1 & R1) end;
          rewrite E1; exists c1; (split; [reflexivity|exact R1]).
      - destruct (related_commit c s Rel) as (c1 & E1 & R1). rewrite E1. exists c1. split; [reflexivity|exact R1].
      - eexists. split; [reflexivity|]. destruct Rel as (R & TH & P & D). split; [reflexivity|]. split; [discriminate|]. split; exact D.
      - exists c. split; [|exact Rel]. do 2 f_equal. apply map_ext. intros r. rewrite storeRead_shown. apply read_ext. apply Rel. }
    destruct STEP as (c1 & E1 & R1). rewrite E1. cbn [bind]. destruct (IH c1 (snd (specStep s op)) R1 P2) as (c' & E2 & R2). rewrite E2. cbn [bind].
    destruct (specStep s op) as [a s1]. cbn [fst snd] in *. destruct (specRun s1 ops) as [b s2]. exists c'. split; [reflexivity|exact R2].
Qed.

Lemma related_open d : related (newLDBConn d false) {| s_pending := onDisk d; s_durable := onDisk d |}.
Proof. split; [reflexivity|]. split; [discriminate|]. split; reflexivity. Qed.

(** ** Crashes *)

Theorem crash_states c d : (forall v, bget (c_batch c) leveldbTreeHeadKey = Some v -> v <> None) -> In d (commitSteps c) ->
  (forall o, onDisk d o = onDisk (c_conn c) o) \/ (forall o, onDisk d o = shown c o) \/
  (onDisk d OTreeHead = onDisk (c_conn c) OTreeHead /\ forall o, o <> OTreeHead -> onDisk d o = shown c o).
Proof.
  intros TH I.
  assert (M : let d1 := writeBatch (c_conn c) (c_batch c) in onDisk d1 OTreeHead = onDisk (c_conn c) OTreeHead /\ forall o, o <> OTreeHead -> onDisk d1 o = shown c o).
  { cbv zeta. split.
    - unfold onDisk. rewrite writeBatch_get. change (dbKey OTreeHead) with leveldbTreeHeadKey. now rewrite bytes_eqb_refl.
    - intros o Ho. unfold onDisk, shown, connGet. rewrite writeBatch_get. destruct (bytes_eqb (dbKey o) leveldbTreeHeadKey) eqn:E; [|reflexivity].
      apply bytes_eqb_eq in E. change leveldbTreeHeadKey with (dbKey OTreeHead) in E. now apply dbKey_inj in E. }
  unfold commitSteps in I. destruct (bget (c_batch c) leveldbTreeHeadKey) as [v|] eqn:B.
  - destruct I as [<-|[<-|[<-|[]]]]; [now left|right; right; exact M|]. right. left. intros o.
    unfold onDisk. rewrite bget_bput. destruct (bytes_eqb (dbKey o) leveldbTreeHeadKey) eqn:E.
    + apply bytes_eqb_eq in E. unfold shown, connGet. rewrite E, B. destruct v; [reflexivity|now specialize (TH _ eq_refl)].
    + rewrite (writeBatch_get (c_conn c) (c_batch c) (dbKey o)), E. reflexivity.
  - destruct I as [<-|[<-|[]]]; [now left|]. right. left. intros o. destruct (object_eq_dec o OTreeHead) as [->|Ho]; [|now apply M].
    rewrite (proj1 M). unfold onDisk, shown, connGet. change (dbKey OTreeHead) with leveldbTreeHeadKey. now rewrite B.
Qed.

(** ** Indices *)

Lemma putUvarint_nonempty x : putUvarint x <> [].
Proof. unfold putUvarint. cbn [putUvarintF]. now destruct (x <? 128). Qed.

Lemma readUvarints_put l : Forall (fun x => x < two64) l -> forall fuel, (List.length (flat_map putUvarint l) <= fuel)%nat ->
  readUvarints fuel (flat_map putUvarint l) = Ok l.
Proof.
  induction 1 as [|x l Hx Hl IH]; intros fuel Hf; cbn [flat_map] in *; [now destruct fuel|].
  assert (N : putUvarint x ++ flat_map putUvarint l <> []) by (pose proof (putUvarint_nonempty x); now destruct (putUvarint x)).
  rewrite app_length in Hf. assert (L : (0 < List.length (putUvarint x))%nat) by (pose proof (putUvarint_nonempty x); destruct (putUvarint x); [contradiction|cbn; lia]).
  destruct fuel as [|fuel]; [lia|].
  pose proof (readUvarint_put x (flat_map putUvarint l) Hx) as RU.
  destruct (putUvarint x ++ flat_map putUvarint l) as [|b t] eqn:E; [contradiction|].
  cbn [readUvarints]. rewrite RU. cbn [bind]. rewrite IH by lia. reflexivity.
Qed.

Lemma delta_spec l : forall prev, Forall (fun x => x < two64) (prev :: l) ->
  (StronglySorted N.le (prev :: l) /\ exists d, delta prev l = Ok d /\ Forall (fun x => x < two64) d /\ undelta prev d = l) \/
  (~ StronglySorted N.le (prev :: l) /\ exists msg, delta prev l = Fail msg).
Proof.
  induction l as [|x l IH]; intros prev F.
  - left. split; [constructor; constructor|]. exists []. repeat split. constructor.
  - inversion F as [|? ? Hp F']; subst. inversion F' as [|? ? Hx _]; subst. cbn [delta].
    destruct (IH x F') as [(S & d & E & Fd & U)|(NS & msg & E)]; rewrite E; cbn [bind].
    + destruct (x <? prev) eqn:Lt.
      * right. split; [|eauto]. intros S'. inversion S' as [|? ? S1 S2]; subst. inversion S2; lia.
      * left. split.
        -- constructor; [exact S|]. constructor; [lia|]. inversion S as [|? ? S1 S2]; subst.
           revert S2. apply Forall_impl. intros a. lia.
        -- eexists. split; [reflexivity|]. unfold sub64. split.
           ++ constructor; [|exact Fd]. apply N.mod_lt. discriminate.
           ++ cbn [undelta]. assert (A : add64 ((x + two64 - prev) mod two64) prev = x) by (unfold add64, two64 in *; lia). rewrite A, U. reflexivity.
    + right. split; [|eauto]. intros S'. inversion S'; contradiction.
Qed.

Lemma decode_encode index : Forall (fun x => x < two64) index -> index <> [] ->
  (StronglySorted N.le index /\ exists raw, encodeIndex index = Ok (Some raw) /\ decodeIndex (Some raw) = Ok index) \/
  (~ StronglySorted N.le index /\ exists msg, encodeIndex index = Fail msg).
Proof.
  intros F NE. destruct index as [|x t]; [contradiction|]. cbn [encodeIndex].
  destruct (delta_spec t x F) as [(S & d & E & Fd & U)|(NS & msg & E)]; rewrite E; cbn [bind]; [left|right; eauto].
  split; [exact S|]. eexists. split; [reflexivity|]. unfold decodeIndex.
  rewrite (readUvarints_put (x :: d)); [cbn [bind]; now rewrite U| |lia]. inversion F; subst. now constructor.
Qed.

Lemma mapM_all {A B} (f : A -> res B) (g : A -> B) l : (forall a, In a l -> f a = Ok (g a)) -> mapM f l = Ok (map g l).
Proof.
  induction l as [|a l IH]; intros H; cbn [mapM map]; [reflexivity|]. rewrite (H a) by now left. cbn [bind].
  rewrite IH by (intros; apply H; now right). reflexivity.
Qed.

Lemma batchGetIndex_eq c labels : batchGetIndex c labels = mapM (fun l => decodeIndex (shown c (OIndex l))) labels.
Proof.
  unfold batchGetIndex. cbn [storeRead]. unfold lenN. rewrite map_length, N.eqb_refl. cbn [negb].
  induction labels as [|l t IH]; cbn [mapM map]; [reflexivity|]. fold (shown c (OIndex l)). rewrite IH. reflexivity.
Qed.

Theorem index_roundtrip c label index : Forall (fun x => x < two64) index -> index <> [] -> c_readonly c = false ->
  (StronglySorted N.le index /\ exists c', putIndex c label index = Ok c' /\    batchGetIndex c' [label] = Ok [index] /\    forall other, other <> label -> batchGetIndex c' [other] = batchGetIndex c [other]) \/
  (~ StronglySorted N.le index /\ exists msg, putIndex c label index = Fail msg).
Proof.
  intros F NE R. unfold putIndex.
  destruct (decode_encode index F NE) as [(S & raw & E & D)|(NS & msg & E)]; rewrite E; cbn [bind]; [left|right; eauto].
  split; [exact S|]. cbn [storePut notNil of_opt bind].
  destruct (connPut c (dbKey (OIndex label)) (Some raw)) as [c'|m|m|] eqn:P; try (unfold connPut in P; rewrite R in P; discriminate).
  exists c'. split; [reflexivity|]. pose proof (connPut_shown _ _ _ _ P) as SH. split.
  - rewrite batchGetIndex_eq. cbn [mapM]. rewrite SH. unfold setObj. destruct (object_eq_dec (OIndex label) (OIndex label)); [|contradiction].
    rewrite D. reflexivity.
  - intros other Ho. rewrite !batchGetIndex_eq. cbn [mapM]. rewrite SH. unfold setObj.
    destruct (object_eq_dec (OIndex label) (OIndex other)); [congruence|reflexivity].
Qed.

(** Indices survive a commit, a reopening and what happens to other objects. *)
Theorem index_missing c label : shown c (OIndex label) = None -> batchGetIndex c [label] = Ok [[]].
Proof. intros H. rewrite batchGetIndex_eq. cbn [mapM]. rewrite H. reflexivity. Qed.
