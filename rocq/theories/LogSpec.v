(** What is asked of log callbacks, in terms of what happened. *)
From Verif Require Import Base LogModel.

(** The subscriptions in force after a history: token and callback *)
Definition subscribed (h : list obs) : list (nat * nat) :=
  foldl (fun l o => match o with
    | Subscribed _ k f => l ++ [(k, f)]
    | Unsubscribed _ k => filter (fun x => fst x <> k) l
    | _ => l
    end) [] h.
Definition tokens (h : list obs) : list nat := omap (fun o => match o with Subscribed _ k _ => Some k | _ => None end) h.
Definition is_filed (o : obs) : bool := match o with Filed _ _ _ => true | _ => false end.

(** The histories allowed: tokens are new; a message goes to exactly the callbacks subscribed when it is printed, each
    once, and is written to the file after that, before anything else happens. *)
Inductive story : list obs -> Prop :=
| story_nil : story []
| story_sub h t k f : story h -> k ∉ tokens h -> story (h ++ [Subscribed t k f])
| story_unsub h t k f : story h -> (k, f) ∈ subscribed h -> story (h ++ [Unsubscribed t k])
| story_log h t i m l : story h -> l ≡ₚ subscribed h ->
    story (h ++ Printed t i m :: map (fun '(k, f) => Called k f t m) l ++ [Filed t i m]).
(** A message being delivered: some of the callbacks have been called *)
Definition in_delivery (t i m : nat) (rest : list (nat * nat)) (h : list obs) : Prop :=
  exists h0 l, story h0 /\ l ++ rest ≡ₚ subscribed h0 /\ h = h0 ++ Printed t i m :: map (fun '(k, f) => Called k f t m) l.
