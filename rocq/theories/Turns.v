(** A caller that makes requests with one [HttpClient] and goes on after errors. *)
From Verif Require Import Base Io Types Message Outgoing Client Server OutLemmas Net Session.

Section Turns.
  Context {Addr S Wd A : Type} (aeq : forall x y : Addr, {x = y} + {x <> y})
    (conn : connector Addr S Wd) (bld : build) (cap : nat) (rd : reader S) (wt : writer S).

  (** A request: its method, its URL, what is written to it and what is done with the answer. *)
  Definition asked : Type := (method * url * list op * (status -> headers -> prog A))%type.

  (** One request: [HttpClient::get] or [put] (src/client.rs 275-295), then [Session.request_rest]. The result, the pool and the
      outside world. *)
  Definition turn (fuel : nat) (q : asked) (pl : pool) (w : Wd) : res (status * headers * A) * (@pool Addr S * Wd) :=
    let '(m, u, ops, p) := q in
    match client_start aeq conn bld cap wt m fuel u pl w with
    | (Ok (a, o), (pl1, w1)) => let (x, s) := request_rest bld cap rd wt fuel ops p o in (x, (pool_update aeq a s pl1, w1))
    | (Err e, pw) => (Err e, pw)
    | (Panic, pw) => (Panic, pw)
    | (Fuel, pw) => (Fuel, pw)
    end.

  (** One after the other with the same [HttpClient] (src/client.rs 251-296), also after errors; a panic ends the program. *)
  Fixpoint turns (fuel : nat) (l : list asked) (pl : pool) (w : Wd) : list (res (status * headers * A)) * (@pool Addr S * Wd) :=
    match l with
    | [] => ([], (pl, w))
    | q :: t =>
        match turn fuel q pl w with
        | (Panic, pw) => ([Panic], pw)
        | (Fuel, pw) => ([Fuel], pw)
        | (x, (pl1, w1)) => let (xs, pw) := turns fuel t pl1 w1 in (x :: xs, pw)
        end
    end.
End Turns.
