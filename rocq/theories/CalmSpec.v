(** Specification for C48: the client states, label states and responses for which verification ends with a result or an error. *)
From Verif Require Import Base CodecModel CodecSpec AlgModel ServerModel ClientModel.
Open Scope N_scope.

(** The greatest version for which binary ladders are computed correctly is 2^31 - 2 (see C26). *)
Definition smallVersion (v : N) : Prop := v < 2147483647.

(** The result is a value or an error, or else the program stopped because it read a field of a nil contact state. *)
Definition safeButContact {A} (r : res A) : Prop := safe r \/ r = Panic "nil pointer dereference"%string.

(** The client has a tree head, of an existing log. *)
Definition usableState (st : clientState) : Prop := 1 <= th_size (cs_head st) < two64.

(** What the client monitors of a label exists in a log of [n] entries, and its versions are small. *)
Definition smallOwner (o : ownerState) : Prop := (-1 <= os_verAt o /\ os_verAt o + Z.of_nat (List.length (os_upcoming o)) < 2147483647)%Z.
Definition usableLabel (n : N) (ls : labelState) : Prop :=
  Forall (fun e => fst e < n /\ smallVersion (snd e)) (cl_contact ls) /\ optok smallOwner (cl_owner ls).

(** Everything stored that can be read back is usable. *)
Definition usableStore (c : pubConfig) (hs : N) (k : clientStore) : Prop :=
  k_state k <> None /\
  forall st, getState c k = Ok (Some st) ->
    usableState st /\ forall label ls, getLabelState hs k label = Ok ls -> usableLabel (th_size (cs_head st)) ls.

(** An exchange with the server: the client makes a request from what it has stored and verifies the response.  (For the
    initialization of an owner the starting position is given, [getDistinguished] computes it.) *)
Inductive exchange :=
| SearchFor (label : bytes) (version : option N) (resp : searchResponse)
| InitOwner (label : bytes) (start : N) (resp : ownerInitResponse)
| MonitorLabel (label : bytes) (resp : monitorResponse)
| UpdateLabel (label : bytes) (values : list bytes) (resp : updateResponse).

Section Exchange.
Variable H : bytes -> option bytes.
Variable hs : N.
Variable c : pubConfig.
Variable now : N.
Variable vrfVerify : bytes -> bytes -> option bytes.
Variable sigVerify leafVerify audVerify : bytes -> bytes -> bool.
Variable visit : nat -> list (N * N) -> list N.

Definition exchanged (k : clientStore) (x : exchange) : res clientStore :=
  let* state := getState c k in
  match x with
  | SearchFor label version resp =>
      clientSearch H hs c now vrfVerify sigVerify leafVerify audVerify visit k state
        {| sq_last := getLast state; sq_label := label; sq_version := version |} resp
  | InitOwner label start resp =>
      let* ls := getLabelState hs k label in
      clientOwnerInit H hs c now vrfVerify sigVerify audVerify k state ls {| iq_last := getLast state; iq_label := label; iq_start := start |} resp
  | MonitorLabel label resp =>
      let* ls := getLabelState hs k label in
      match cl_owner ls with
      | None => clientContactMonitor H hs c now sigVerify audVerify k state ls
                  {| cq_last := getLast state; cq_label := label; cq_entries := cl_contact ls |} resp
      | Some o => clientOwnerMonitor H hs c now sigVerify audVerify k state ls
                    {| oq_last := getLast state; oq_label := label; oq_entries := cl_contact ls; oq_start := os_starting o; oq_greatest := ownerGreatest o |} resp
      end
  | UpdateLabel label values resp =>
      let* sv := updateRequestFor hs c k label values in
      let* (k', _) := streamVerify H hs c now vrfVerify sigVerify leafVerify audVerify k sv resp in
      Ok k'
  end.
End Exchange.

(** The number of steps that [VerifyUpdate] reads from the response's binary ladder for [count] new versions of a label. *)
Definition ladderCovers (o : ownerState) (count : N) (steps : list ladderStep) : Prop :=
  let start := match ownerGreatest o with Some g => g + 1 | None => 0 end in
  forall vs, updateLadderVersions start (start + count - 1) = Ok vs -> (List.length vs <= List.length steps)%nat.

(** The response could be decoded and names small versions. *)
Definition admissible (c : pubConfig) (x : exchange) : Prop :=
  match x with
  | SearchFor label version resp =>
      okSearchResponse c version resp /\ optok smallVersion version /\ optok smallVersion (sr_version resp)
  | InitOwner label start resp => okOwnerInitResponse c resp /\ Forall smallVersion (ir_versions resp)
  | MonitorLabel label resp => okMonitorResponse c resp
  | UpdateLabel label values resp => okUpdateResponse c resp
  end.
