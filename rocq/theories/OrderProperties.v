(** C96 and C97: what a client writes down after a search, so as to monitor the label. *)
From Coq Require Import Permutation.
From Verif Require Import Base LogTreeModel LogTreeSpec TransMathSpec PrefixModel PrefixExamples CodecModel CodecSpec AlgModel HandleModel StoreModel MutateModel MutateSpec MutateExamples ServerModel ClientModel ClientSpec ClientExamples SearchExamples
  CalmSpec OrderSpec OrderProofs OrderProofs2 OrderExamples.
Open Scope N_scope.
Local Open Scope list_scope.

(** C96 is false: what the client keeps depends on the order in which Go visits the map of monitored entries.  An honest log, a client that has seen it, the
    honest answer to a search, and two orders: with one of them the client will monitor one entry, with the other also an entry of which the first is an
    ancestor, and for the same version. *)
Theorem C96_refuted : exists f hs c vrf vrfVerify sign sigVerify Ls t rs st es now req resp visit visit' k' k'' ls' ls'',
  (forall x, lenN (f x) = hs) /\ vrfVerifies vrf vrfVerify /\ sigVerifies sign sigVerify /\
  runs (full f) hs c vrf sign Ls t rs /\ logOf t es /\ t_head t = Some (cs_head st) /\ stateFor f (cs_head st) es st /\
  sq_last req = getLast (Some st) /\ serverSearch (full f) hs c vrf now (serverOf t) req = Ok resp /\
  anyOrder visit /\ anyOrder visit' /\
  clientSearch (full f) hs c now vrfVerify sigVerify sigVerify sigVerify visit emptyClient (Some st) req resp = Ok k' /\
  clientSearch (full f) hs c now vrfVerify sigVerify sigVerify sigVerify visit' emptyClient (Some st) req resp = Ok k'' /\
  getLabelState hs k' (sq_label req) = Ok ls' /\ getLabelState hs k'' (sq_label req) = Ok ls'' /\
  cl_contact ls' = [(3, 0)] /\ cl_contact ls'' = [(0, 0); (3, 0)] /\ sanc (th_size (cs_head st)) 0 3.
Proof. exact c96_refuted. Qed.
Print Assumptions C96_refuted.

(** The order decides about nothing else: the client's state, what it keeps for other labels, and from which entry on the label has to be monitored again are
    the same.  (Which entries may remain: see C97.) *)
Theorem C96_partial : forall H hs c now vrfVerify sigVerify leafVerify audVerify visit visit' k st req resp k1 k2,
  clientSearch H hs c now vrfVerify sigVerify leafVerify audVerify visit k st req resp = Ok k1 ->
  clientSearch H hs c now vrfVerify sigVerify leafVerify audVerify visit' k st req resp = Ok k2 ->
  k_state k1 = k_state k2 /\ (forall l, l <> sq_label req -> bget (k_labels k1) l = bget (k_labels k2) l) /\
  (forall raw pos raw' pos', bget (k_labels k1) (sq_label req) = Some (raw, pos) -> bget (k_labels k2) (sq_label req) = Some (raw', pos') -> pos = pos').
Proof. exact search_orders. Qed.
Print Assumptions C96_partial.

Example C96_example : xwith keysUp emptyClient = Ok kUp /\ xwith keysDown emptyClient = Ok kDown /\ k_state kUp <> None /\ k_labels kUp <> k_labels kDown.
Proof. split; [exact kUp_result|]. split; [exact kDown_result|]. split; discriminate. Qed.

(** Nor does acceptance: a response that is accepted with one order is accepted with every order.  (For the label something with version 0 is kept if it is monitored, as is always the case of
    what a client computes, see C49.) *)
Theorem C96_acceptance_partial : forall H hs c now vrfVerify sigVerify leafVerify audVerify visit visit' k st req resp k1,
  hs = N.of_nat (pc_hs c) -> (255 <= 8 * pc_hs c)%nat -> usableState st -> sq_last req = getLast (Some st) -> okSearchResponse c (sq_version req) resp ->
  optok smallVersion (sq_version req) -> optok smallVersion (sr_version resp) ->
  (forall ls, getLabelState hs k (sq_label req) = Ok ls -> cl_contact ls <> [] -> exists e, In e (cl_versions ls) /\ rv_version e = 0) ->
  clientSearch H hs c now vrfVerify sigVerify leafVerify audVerify visit k (Some st) req resp = Ok k1 ->
  exists k2, clientSearch H hs c now vrfVerify sigVerify leafVerify audVerify visit' k (Some st) req resp = Ok k2.
Proof. exact search_accepted. Qed.
Print Assumptions C96_acceptance_partial.

Example C96_acceptance_example : (usableState sx4 /\ sq_last qx4 = getLast (Some sx4) /\ okSearchResponse xc (sq_version qx4) rx4 /\ optok smallVersion (sq_version qx4) /\ optok smallVersion (sr_version rx4)) /\
  pc_hs xc = 32%nat /\ (exists ls, getLabelState 32 emptyClient (sq_label qx4) = Ok ls /\ cl_contact ls = []) /\ xwith keysUp emptyClient = Ok kUp.
Proof. split; [exact rx4_ok|]. split; [reflexivity|]. split; [eexists; split; [vm_compute; reflexivity|reflexivity]|exact kUp_result]. Qed.

(** C97.  After an accepted search, in whatever order maps are visited: either nothing that is kept for labels changes, which only
    happens if labels are not monitored or the search ended at or left of the last distinguished entry, or for this label a new state is
    kept, in which the version found is looked for at the entry where the search ended, and whatever was looked for before still is; nothing else is
    looked for than before, except the version found, and at that entry or its ancestors to the right.  (The version and the entry are those found by the
    checks of the search.) *)
Theorem C97_still_looked_for : forall H hs c now vrfVerify sigVerify leafVerify audVerify visit k st req resp k',
  hs = N.of_nat (pc_hs c) -> (255 <= 8 * pc_hs c)%nat -> usableState st -> sq_last req = getLast (Some st) -> okSearchResponse c (sq_version req) resp ->
  optok smallVersion (sq_version req) -> optok smallVersion (sr_version resp) ->
  clientSearch H hs c now vrfVerify sigVerify leafVerify audVerify visit k (Some st) req resp = Ok k' ->
  exists v ver x, checkSearch H hs c now vrfVerify leafVerify (Some st) req resp = Ok (v, ver, x) /\
  ((k_labels k' = k_labels k /\ (pc_mode c <> ContactMonitoring \/ exists d v', execV H hs (rightmostDistinguished c (v_n v)) v = Ok (Some d, v') /\ x <= d)) \/
   (pc_mode c = ContactMonitoring /\ forall d v', execV H hs (rightmostDistinguished c (v_n v)) v = Ok (Some d, v') -> d < x) /\
   exists ls ls' raw pos, getLabelState hs k (sq_label req) = Ok ls /\ labelStateMarshal ls' = Ok raw /\ bget (k_labels k') (sq_label req) = Some (raw, pos) /\
     (forall l, l <> sq_label req -> bget (k_labels k') l = bget (k_labels k) l) /\ cl_owner ls' = cl_owner ls /\
     (NoDup (map fst (cl_contact ls)) ->
      lookedFor (v_n v) (cl_contact ls') x ver /\
      (forall y u, In (y, u) (cl_contact ls) -> y < v_n v -> lookedFor (v_n v) (cl_contact ls') y u) /\
      (forall y u, In (y, u) (cl_contact ls') -> In (y, u) (cl_contact ls) \/ (u = ver /\ (y = x \/ x < y /\ sanc (v_n v) x y))))).
Proof. exact search_kept. Qed.
Print Assumptions C97_still_looked_for.

(** The same of the map alone, which may be filled before (a search for a label that is already monitored is refused, see C49). *)
Theorem C97_map : forall visit es x n ver es' x', 1 <= n < 2 ^ 64 -> x < n -> NoDup (map fst es) -> updateContactState visit es x n ver = Ok (es', x') ->
  lookedFor n es' x ver /\
  (forall y v, In (y, v) es -> y < n -> lookedFor n es' y v) /\
  (forall y v, In (y, v) es' -> In (y, v) es \/ (v = ver /\ (y = x \/ x < y /\ sanc n x y))).
Proof. exact update_keeps. Qed.
Print Assumptions C97_map.

Example C97_example : (usableState sx4 /\ sq_last qx4 = getLast (Some sx4) /\ okSearchResponse xc (sq_version qx4) rx4 /\ optok smallVersion (sq_version qx4) /\ optok smallVersion (sr_version rx4)) /\
  pc_hs xc = 32%nat /\ xwith keysUp emptyClient = Ok kUp /\ k_labels kUp <> [].
Proof. split; [exact rx4_ok|]. split; [reflexivity|]. split; [exact kUp_result|discriminate]. Qed.

(** Entries 0 and 8 of a log of 9 are monitored, and a search for a greater version ends at entry 1: only the entries 7 and 8 remain. *)
Example C97_map_example : updateContactState keysUp [(0, 2); (8, 5)] 1 9 4 = Ok ([(7, 4); (8, 5)], 7) /\ sanc 9 0 7.
Proof. split; [vm_compute; reflexivity|]. exists 0, 9. split; [constructor|]. split; [reflexivity|lia]. Qed.
