(** * SplitSpec: what is on the media *)
From Coq Require Import List.
From Verif Require Import Base SplitModel.
Local Open Scope nat_scope.

(** All that the media hold, in order. *)
Definition recorded (m : media) : list N := concat (old m) ++ cur m.

(** Media of [cap] bytes: a write is refused for lack of space exactly when it does not fit
    in the room left. *)
Definition honest (cap : nat) (m : media) : Prop :=
  forall used asked w, In (used, asked, w) (calls m) ->
    match w with
    | WNospc => cap < used + asked
    | WTook k => used + k <= cap
    | _ => True
    end.
