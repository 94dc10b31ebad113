(** * EaSpec: a list of extended attributes is a finite map from names to values *)
From Coq Require Import List.
From Verif Require Import Base InfinintModel EaModel.
Open Scope N_scope.

(** names are ordered by their first difference *)
Inductive before : str -> str -> Prop :=
| bf_shorter : forall p c r, before p (p ++ c :: r)
| bf_smaller : forall p c d r s, c < d -> before (p ++ c :: r) (p ++ d :: s).

(** the objects a program obtains *)
Inductive built : ea -> Prop :=
| bl_empty : built empty
| bl_copy : forall o, built o -> built (copy o)
| bl_add : forall o k v, built o -> built (add k v o)
| bl_reset : forall o, built o -> built (reset_read o)
| bl_read : forall o, built o -> built (snd (read o))
| bl_clear : forall o, built o -> built (clear o)
| bl_diff : forall o other cov, built o -> built other -> built (snd (diff cov o other))
| bl_plus : forall o arg, built o -> built arg -> built (fst (plus o arg))
| bl_plus_arg : forall o arg, built o -> built arg -> built (snd (plus o arg))
| bl_construct : forall ver f o r, construct ver f = Ok (o, r) -> built o.

(** what repeated calls to read give, until it returns false *)
Inductive reads : ea -> list (str * str) -> ea -> Prop :=
| rd_end : forall o o', read o = (None, o') -> reads o [] o'
| rd_more : forall o kv o1 l o', read o = (Some kv, o1) -> reads o1 l o' -> reads o (kv :: l) o'.

(** same names and same values *)
Definition same (a b : ea) : Prop := forall k, find k a = find k b.
Definition bytes_of (l : list (str * str)) : N := fold_right (fun p n => N.of_nat (length (fst p)) + N.of_nat (length (snd p)) + n) 0 l.
Definition no_nul (o : ea) : Prop := forall k v, find k o = Some v -> ~ In 0 k.

(** the attributes of archives before format 5: a domain, a name without prefix, a value *)
Definition old_record : Type := N * str * str.
Definition old_bytes (l : list old_record) : list N :=
  dumpN (N.of_nat (length l)) ++ concat (map (fun '(fl, n, v) => fl :: (n ++ [0]) ++ dumpN (N.of_nat (length v)) ++ v) l).
Definition old_name (fl : N) (n : str) : str := (if 128 <=? fl then [115; 121; 115; 116; 101; 109; 46] else [117; 115; 101; 114; 46]) ++ n.
