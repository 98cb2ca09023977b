(** Model of tree/transparency/math/math.go: the implicit binary search tree over
    log entries.  The arithmetic helpers are textually those of
    tree/log/math/math.go and are shared with LogMathModel.v; here the tree
    has exactly [n] nodes (the width is [n] itself). *)
From Verif Require Import Base LogMathModel.

(** tree/transparency/math/math.go:34-36 *)
Definition troot (n : N) : N := rootW n.

(** tree/transparency/math/math.go:39-45 *)
Definition tleft (x : N) : res N := left x.

(** tree/transparency/math/math.go:56-62 *)
Definition tright (x n : N) : res N := rightW x n.

(** tree/transparency/math/math.go:71-80 *)
Definition tparent (x n : N) : res N := parentW x n.

(** The loop [for out[len(out)-1] != n-1 { out = append(out, Right(...)) }]
    shared by [Frontier] and [UpdateView]; [x] is the last element of [out], the
    result is what is appended after it. *)
Fixpoint descend_loop (fuel : nat) (x n : N) : res (list N) :=
  match fuel with
  | O => Fuel
  | S f =>
      if x =? sub64 n 1 then Ok []
      else let* r := tright x n in
           let* rest := descend_loop f r n in
           Ok (r :: rest)
  end.

(** tree/transparency/math/math.go:83-89 *)
Definition frontier (n : N) : res (list N) :=
  let r := troot n in
  let* rest := descend_loop 66 r n in
  Ok (r :: rest).

Fixpoint leftDirectPath_loop (fuel : nat) (r y x : N) : res (list N) :=
  match fuel with
  | O => Fuel
  | S f =>
      if y =? r then Ok []
      else let y' := parentStep y in
           let* d := leftDirectPath_loop f r y' x in
           Ok (if y' <? x then y' :: d else d)
  end.

(** tree/transparency/math/math.go:93-104 *)
Definition leftDirectPath (x : N) : res (list N) :=
  leftDirectPath_loop 66 (troot (add64 x 1)) x x.

Fixpoint rightDirectPath_loop (fuel : nat) (r y x n : N) : res (list N) :=
  match fuel with
  | O => Fuel
  | S f =>
      if y =? r then Ok []
      else let* y' := tparent y n in
           let* d := rightDirectPath_loop f r y' x n in
           Ok (if x <? y' then y' :: d else d)
  end.

(** tree/transparency/math/math.go:108-119 *)
Definition rightDirectPath (x n : N) : res (list N) :=
  rightDirectPath_loop 66 (troot n) x x n.

(** tree/transparency/math/math.go:126-142 *)
Definition updateViewPath (n : N) (m : option N) : res (list N) :=
  match m with
  | Some m0 =>
      if m0 =? n then Ok []
      else if m0 =? 0 then frontier n
      else
        let* d := rightDirectPath (sub64 m0 1) n in
        match d with
        | [] => Ok []
        | _ => let* rest := descend_loop 66 (last d 0) n in Ok (d ++ rest)
        end
  | None => frontier n
  end.
