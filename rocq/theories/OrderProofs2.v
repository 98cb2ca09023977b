(** Proofs for C96: acceptance of a search does not depend on the order in which maps are visited. *)
From Coq Require Import Permutation.
From Verif Require Import Base BaseProofs LogTreeModel LogTreeSpec LaddersModel TransMathModel TransMathSpec TransMathProofs TransMathProofs2 PrefixModel CodecModel CodecSpec AlgModel AlgProofs4 HandleModel HandleProofs StoreModel ServerModel ClientModel
  ClientProofs ClientProofs2 HandleProofs3 ReloadProofs CalmSpec CalmProofs CalmProofs2 CalmProofs3 CalmProofs4 GuardProofs4 GuardProofs5 GuardProofs6 OrderSpec OrderProofs.
Open Scope N_scope.
Local Open Scope list_scope.

Section Total.
Variable n : N.
Hypothesis Hn : ok64 n.
Local Notation below := (Forall (fun e : N * N => fst e < n)).

Lemma mdel_below m x : below m -> below (mdel m x).
Proof. intro F. apply Forall_forall. intros e I. apply filter_In in I. rewrite Forall_forall in F. now apply F. Qed.

Lemma round_total xs : forall m md, below m -> exists m' md', simplifyRound n xs m md = Ok (m', md') /\ below m' /\ (List.length m' <= List.length m)%nat /\
  (md' = true -> md = true \/ (List.length m' < List.length m)%nat).
Proof.
  induction xs as [|x t IH]; intros m md F; [exists m, md; cbn; auto|]. cbn [simplifyRound]. destruct (mget m x) as [ver|] eqn:G; [|apply IH; auto].
  assert (Hx : x < n) by (apply HandleProofs.mget_In in G; rewrite Forall_forall in F; apply (F _ G)). destruct (c11_right n x Hn Hx) as (path & -> & _). cbn [bind]. destruct path as [|p path]; [apply IH; auto|].
  destruct (mget m p) as [par|]; [|apply IH; auto]. destruct (par <? ver); [apply IH; auto|].
  pose proof (mdel_len m x ver G) as L. destruct (IH (mdel m x) true (mdel_below _ _ F)) as (m' & md' & E & A & B & D). exists m', md'. split; [exact E|]. split; [exact A|]. split; [lia|]. intros _. right. lia.
Qed.

Lemma loop_total visit fuel : forall i m, below m -> (List.length m < fuel)%nat -> exists m', simplifyLoop fuel visit i n m = Ok m' /\ (List.length m' <= List.length m)%nat.
Proof.
  induction fuel as [|f IH]; intros i m F L; [lia|]. cbn [simplifyLoop]. destruct (round_total (visit i m) m false F) as (m1 & md & -> & A & B & D). cbn [bind]. destruct md; [|eauto].
  destruct (D eq_refl) as [|D']; [discriminate|]. destruct (IH (S i) m1 A ltac:(lia)) as (m' & E & L'). exists m'. split; [exact E|lia].
Qed.

Lemma setPath_below path ver : Forall (fun x => x < n) path -> forall m x, below m -> below (fst (setPath path ver m x)).
Proof.
  intro Fp. induction Fp as [|y t Hy Fp IH]; intros m x F; [exact F|]. cbn [setPath]. destruct (match mget m y with Some v => ver <? v | None => false end); [exact F|]. apply IH. constructor; [exact Hy|exact F].
Qed.
Lemma setPath_length path ver : forall m x, (List.length (fst (setPath path ver m x)) <= List.length m + List.length path)%nat.
Proof.
  induction path as [|y t IH]; intros m x; cbn [setPath List.length]; [cbn; lia|]. destruct (match mget m y with Some v => ver <? v | None => false end); [cbn; lia|].
  specialize (IH (mput m y ver) y). cbn [mput List.length] in IH. lia.
Qed.
End Total.

Lemma path_length x n d : rightDirectPath x n = Ok d -> (List.length d <= 66)%nat.
Proof.
  unfold rightDirectPath. generalize (troot n) as r, x at 1. generalize 66%nat as fuel. intros fuel. revert d. induction fuel as [|f IH]; intros d r y E; [discriminate|]. cbn [rightDirectPath_loop] in E. destruct (y =? r); [injection E as <-; cbn; lia|].
  apply bind_ok in E as (y' & _ & E). apply bind_ok in E as (d' & Q & E). apply IH in Q. injection E as <-. destruct (x <? y'); cbn [List.length]; lia.
Qed.

Lemma contactStruct_length m es : contactStruct (Some m) = Ok es -> (List.length es <= List.length m)%nat.
Proof.
  cbn [contactStruct]. intro E. injection E as <-. assert (L : (List.length (nsort (nodup N.eq_dec (map fst m))) <= List.length m)%nat).
  { rewrite (Permutation_length (BaseProofs.nsort_perm _)). rewrite <- (map_length fst m). apply NoDup_incl_length; [apply NoDup_nodup|]. intros z I. now apply nodup_In in I. }
  revert L. generalize (nsort (nodup N.eq_dec (map fst m))) as l. intros l L. assert (K : (List.length (flat_map (fun x => match mget m x with Some v => [(x, v)] | None => [] end) l) <= List.length l)%nat).
  { clear. induction l as [|z l IH]; [cbn; lia|]. cbn [flat_map List.length]. rewrite app_length. destruct (mget m z); cbn [List.length]; lia. }
  exact (Nat.le_trans _ _ _ K L).
Qed.

(** With nothing monitored before, every order leaves some positions with the version found, and no others. *)
Lemma update_total visit x n ver : ok64 n -> 1 <= n -> x < n -> exists es x', updateContactState visit [] x n ver = Ok (es, x') /\ es <> [] /\ Forall (fun e => snd e = ver) es /\ lenN es <= 67.
Proof.
  intros Hn H1 Hx. unfold updateContactState. destruct (c11_right n x Hn Hx) as (path & P & Mp & _). rewrite P. cbn [bind].
  assert (Fp : Forall (fun x => x < n) (x :: path)).
  { constructor; [exact Hx|]. apply Forall_forall. intros y Hy. apply Mp in Hy as [Hs _]. apply (sanc_anc _ x _) in Hs; [apply Hs|unfold ok64, two64 in *; lia|exact Hx]. }
  pose proof (setPath_below n (x :: path) ver Fp (contactPtrs []) x (Forall_nil _)) as B. pose proof (setPath_length (x :: path) ver (contactPtrs []) x) as L.
  destruct (setPath (x :: path) ver (contactPtrs []) x) as [m t] eqn:S. cbn [fst] in B, L. apply setPath_keeps in S as (_ & S2 & (w & S3 & _)).
  unfold simplifyMonitoringMap. destruct (loop_total n Hn visit (S (List.length m)) 0 m B ltac:(lia)) as (m' & E & L'). rewrite E. cbn [bind]. apply loop_remains in E as [R1 R2].
  destruct (contactStruct (Some m')) as [es| | |] eqn:C; try discriminate. cbn [bind]. exists es, t. split; [reflexivity|]. split; [|split].
  - destruct (R2 _ _ S3) as (y & v & _ & G & _). intros ->. apply (proj2 (contactStruct_in _ _ C y v)). exists m'. auto.
  - apply Forall_forall. intros [y v] I. apply (contactStruct_in _ _ C) in I. destruct I as (p & Q & G). injection Q as <-. apply R1, S2 in G. destruct G as [G|[_ ->]]; [discriminate|reflexivity].
  - pose proof (contactStruct_length _ _ C). pose proof (path_length _ _ _ P). cbn [List.length] in L. unfold contactPtrs in L. cbn in L. unfold lenN. lia.
Qed.

Lemma mons_same (es : list mapEntry) ver ladder : monitoringBinaryLadder ver = Ok ladder -> Forall (fun e => snd e = ver) es ->
  mapM (fun e : mapEntry => monitoringBinaryLadder (snd e)) es = Ok (map (fun _ => ladder) es).
Proof. intros E F. induction F as [|e es He F IH]; [reflexivity|]. cbn [mapM map]. rewrite He, E. cbn [bind]. rewrite IH. reflexivity. Qed.

(** The retained versions are then the same. *)
Lemma retained_same es es' ver owner vm ls : es <> [] -> es' <> [] -> Forall (fun e => snd e = ver) es -> Forall (fun e => snd e = ver) es' ->
  updateRetainedVersions es owner vm = Ok ls -> updateRetainedVersions es' owner vm = Ok {| cl_contact := es'; cl_owner := owner; cl_versions := cl_versions ls |}.
Proof.
  intros N1 N2 F1 F2 E. unfold updateRetainedVersions in *. apply bind_ok in E as (mons & M & E).
  assert (exists ladder, monitoringBinaryLadder ver = Ok ladder) as (ladder & El).
  { destruct es as [|e es]; [congruence|]. cbn [mapM] in M. apply bind_ok in M as (ladder & M & _). inversion F1; subst. eauto. }
  pose proof (mons_same es ver ladder El F1) as M1. pose proof (mons_same es' ver ladder El F2) as M2. unfold mapEntry in *. rewrite M1 in M. injection M as <-. rewrite M2. cbn [bind].
  apply bind_ok in E as (own & Eo & E). rewrite Eo. cbn [bind]. apply bind_ok in E as (ret & Er & E). injection E as <-. cbn [cl_versions].
  replace (nsort (nodup N.eq_dec (List.concat (map (fun _ : N * N => ladder) es') ++ own))) with (nsort (nodup N.eq_dec (List.concat (map (fun _ : N * N => ladder) es) ++ own))).
  { rewrite Er. reflexivity. }
  apply ReloadProofs.nsort_perm. apply NoDup_Permutation; try apply NoDup_nodup. intro z. rewrite !nodup_In, !in_app_iff.
  assert (K : forall l : list (N * N), l <> [] -> In z (List.concat (map (fun _ => ladder) l)) <-> In z ladder).
  { intros l Nl. rewrite in_concat. split; [intros (q & I & Z); apply in_map_iff in I; destruct I as (? & <- & _); exact Z|]. intro Z. destruct l as [|e l]; [congruence|]. exists ladder. split; [now left|exact Z]. }
  rewrite (K es N1), (K es' N2). reflexivity.
Qed.

Section Client.
Variable H : bytes -> option bytes.
Variable hs : N.
Variable c : pubConfig.
Variable now : N.
Variable vrfVerify : bytes -> bytes -> option bytes.
Variable sigVerify leafVerify audVerify : bytes -> bytes -> bool.

Lemma search_accepted visit visit' k st req resp k1 : hs = N.of_nat (pc_hs c) -> (255 <= 8 * pc_hs c)%nat -> usableState st -> sq_last req = getLast (Some st) -> okSearchResponse c (sq_version req) resp ->
  optok smallVersion (sq_version req) -> optok smallVersion (sr_version resp) ->
  (forall ls, getLabelState hs k (sq_label req) = Ok ls -> cl_contact ls <> [] -> exists e, In e (cl_versions ls) /\ rv_version e = 0) ->
  clientSearch H hs c now vrfVerify sigVerify leafVerify audVerify visit k (Some st) req resp = Ok k1 ->
  exists k2, clientSearch H hs c now vrfVerify sigVerify leafVerify audVerify visit' k (Some st) req resp = Ok k2.
Proof.
  intros Hhs Hc [U1 U2] El Or S1 S2 Hz E. unfold clientSearch in *. apply bind_ok in E as ([[v ver] x] & C & E). rewrite C. cbn [bind].
  assert (B : v_n v < 2 ^ 64 /\ x < v_n v).
  { pose proof (checkSearch_nice H hs c now vrfVerify sigVerify leafVerify audVerify Hhs Hc (Some st) req resp Or) as B. rewrite C in B. cbn [nice] in B. rewrite El in B.
    destruct B as (UV & _ & Bx); auto; [intros kk [= <-]; unfold two64 in U2; change (2 ^ 64) with 18446744073709551616; lia|]. split; [apply UV|exact Bx]. }
  apply bind_ok in E as (s & F & E). rewrite F. cbn [bind]. destruct (negb _); [eauto|]. apply bind_ok in E as ([d v'] & X & E). rewrite X. cbn [bind].
  assert (Nv : v_n v' = v_n v) by (unfold execV in X; apply bind_ok in X as (a & _ & X); injection X as _ <-; reflexivity).
  destruct (match d with Some _ => _ | None => _ end); [eauto|]. apply bind_ok in E as (ls & L & E). rewrite L. cbn [bind]. apply bind_ok in E as (v1 & V & E). rewrite V. cbn [bind].
  assert (Z : cl_contact ls = []).
  { destruct (cl_contact ls) as [|e0 t0] eqn:Q; [reflexivity|]. exfalso. destruct (Hz ls L) as (e & I & Ze); [congruence|]. apply checkSearch_versions in C. destruct C as (ladder & Fl & Vl).
    apply ladder_zero in Fl. destruct Fl as (t & ->). pose proof (addLabelState_has _ _ _ _ _ V I) as M. rewrite Ze in M. rewrite (execV_versions _ _ _ _ _ _ X) in M. rewrite Vl in M by (now left). discriminate. }
  rewrite Z, Nv in *. destruct B as [B1 B2]. assert (O : ok64 (v_n v)) by (unfold ok64; lia).
  destruct (update_total visit x (v_n v) ver O ltac:(lia) B2) as (es1 & t1 & Q1 & N1 & F1 & _). destruct (update_total visit' x (v_n v) ver O ltac:(lia) B2) as (es2 & t2 & Q2 & N2 & F2 & L2).
  rewrite Q1 in E. rewrite Q2. cbn [bind] in E |- *. apply bind_ok in E as (ls1 & R & E). rewrite (retained_same es1 es2 ver _ _ ls1 N1 N2 F1 F2 R). cbn [bind].
  destruct (retained_parts _ _ _ _ R) as [Rc Ro]. unfold putLabelState in *. apply bind_ok in E as (raw & Ms & E). rewrite Ms. cbn [bind cl_contact cl_owner].
  assert (M : exists r1, labelStateMarshal ls1 = Ok r1). { destruct (cl_contact ls1) as [|e1 t]; [congruence|]. apply bind_ok in E as (r1 & E & _). eauto. }
  destruct M as (r1 & M). assert (M2 : exists r2, labelStateMarshal {| cl_contact := es2; cl_owner := cl_owner ls; cl_versions := cl_versions ls1 |} = Ok r2).
  { unfold labelStateMarshal in *. cbn [cl_contact cl_owner cl_versions]. apply bind_ok in M as (m1 & _ & M).
    assert (exists m2, writeSlice 4 mapEntryMarshal es2 = Ok m2) as (m2 & ->).
    { unfold writeSlice. replace (maxS 4 <? lenN es2) with false by (symmetry; apply N.ltb_ge; change (maxS 4) with 4294967295; lia).
      rewrite (HandleProofs3.mapM_total mapEntryMarshal (fun e => (writeNum 8 (fst e) ++ writeNum 4 (snd e))%list)) by reflexivity. cbn [bind]. eauto. }
    cbn [bind]. rewrite <- Ro. destruct (cl_owner ls1) as [o|]; apply bind_ok in M as (b & -> & _); cbn [bind]; eauto. }
  destruct M2 as (r2 & M2). destruct es2 as [|e2 t]; [congruence|]. rewrite M2. cbn [bind]. eauto.
Qed.
End Client.
