(** * ArgSpec: what a user may write and what it means *)
From Coq Require Import List String Ascii.
From Verif Require Import Base ArgModel.
Open Scope N_scope.

Definition digits (b : N) (s : list N) : Prop := Forall (fun c => 48 <= c < 48 + b) s.
(** the number written s in base b *)
Fixpoint number (b : N) (s : list N) : N := match s with [] => 0 | c :: r => (c - 48) * b ^ N.of_nat (List.length r) + number b r end.
(** the suffixes in the order of their powers *)
Definition units : list N := str "kMGTPEZYRQ".
Definition unit_power (c : N) (k : nat) : Prop := nth_error units (k - 1) = Some c /\ (0 < k)%nat \/ c = 75 /\ k = 1%nat.
Inductive size_of (base : N) : list N -> N -> Prop :=
| so_plain : forall ds, ds <> [] -> digits 10 ds -> size_of base ds (number 10 ds)
| so_unit : forall ds c k, ds <> [] -> digits 10 ds -> unit_power c k -> size_of base (ds ++ [c]) (number 10 ds * base ^ N.of_nat k).

(** templates *)
Inductive token := Lit (c : N) | Pct (c : N) (v : list N).
Definition written (t : token) : list N := match t with Lit c => [c] | Pct c _ => [37; c] end.
Definition meant (t : token) : list N := match t with Lit c => [c] | Pct _ v => v end.
Definition token_ok (corres : N -> option (list N)) (t : token) : Prop := match t with Lit c => c <> 37 | Pct c v => corres c = Some v end.
Definition expands (corres : N -> option (list N)) (hook r : list N) : Prop :=
  exists ts, Forall (token_ok corres) ts /\ hook = flat_map written ts /\ r = flat_map meant ts.
(** what the letters of a hook stand for *)
Definition hook_letters (i : slice_info) : list (N * list N) :=
  [(37, [37]); (112, s_path i); (98, s_basename i); (110, s_num i); (78, s_padded i); (101, s_ext i); (99, s_context i); (117, s_url i)].
Definition hook_token (i : slice_info) (t : token) : Prop := match t with Lit c => c <> 37 | Pct c v => In (c, v) (hook_letters i) end.
Definition protected (t : list N) : list N := flat_map (fun c => if c =? 37 then [37; 37] else [c]) t.

(** the text an XML reader sees; None: not well formed *)
Fixpoint xml_read (t : list N) : option (list N) :=
  match t with
  | [] => Some []
  | 38 :: 108 :: 116 :: 59 :: r => option_map (cons 60) (xml_read r)
  | 38 :: 103 :: 116 :: 59 :: r => option_map (cons 62) (xml_read r)
  | 38 :: 97 :: 109 :: 112 :: 59 :: r => option_map (cons 38) (xml_read r)
  | 38 :: 97 :: 112 :: 111 :: 115 :: 59 :: r => option_map (cons 39) (xml_read r)
  | 38 :: 113 :: 117 :: 111 :: 116 :: 59 :: r => option_map (cons 34) (xml_read r)
  | c :: r => if (c =? 38) || (c =? 60) || (c =? 62) || (c =? 34) || (c =? 39) then None else option_map (cons c) (xml_read r)
  end.

(** octal: spaces, a zero, digits, spaces *)
Definition octal_of (p : list N) (v : N) : Prop :=
  (p = [] /\ v = 438) \/
  exists sp ds sp', p = sp ++ [48] ++ ds ++ sp' /\ Forall (fun c => In c [32; 9; 10; 13]) sp /\ digits 8 ds /\ Forall (eq 32) sp' /\ v = number 8 ds.

(** lists with a separator: each field is followed by it, but for the last if it is not empty *)
Definition fields_of (sep : N) (v : list N) (fs : list (list N)) : Prop :=
  Forall (fun f => ~ In sep f) fs /\
  (v = flat_map (fun f => f ++ [sep]) fs \/ exists fs0 l, fs = fs0 ++ [l] /\ l <> [] /\ v = flat_map (fun f => f ++ [sep]) fs0 ++ l).

(** block sizes: a value kept between two bounds, hi = 0 standing for none *)
Definition clamp (umax lo hi x : N) : N := let y := N.max lo (N.min x umax) in if hi =? 0 then y else N.min hi y.
(** [approx g n x]: x is the function g of n, up to the rounding *)
Definition approx (g : fs_function) (n x : N) : Prop :=
  match g with
  | fixed => x = 1
  | linear => x = n
  | log2 => (n = 0 /\ x = 0) \/ (0 < x /\ 2 ^ (x - 1) <= n < 2 ^ x)
  | root2 => (n = 0 /\ x = 1) \/ (x ^ 2 <= 2 * n /\ n < 2 * x ^ 2)
  | root3 => (n = 0 /\ x = 1) \/ (x ^ 3 <= 2 * n /\ n < 4 * x ^ 3)
  end.
