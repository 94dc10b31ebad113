(** * DcfSpec: what a configuration file means *)
From Coq Require Import List String.
From Verif Require Import Base DcfModel.
Local Open Scope nat_scope.

(** ** Lines: each with its end of line, but maybe the last *)
Fixpoint lines (t : list N) : list (list N) :=
  match t with
  | [] => []
  | c :: r => if N.eqb c NL then [c] :: lines r else match lines r with [] => [[c]] | l :: ls => (c :: l) :: ls end
  end.
Definition blank (c : N) : bool := N.eqb c SP || N.eqb c TAB.
Fixpoint skip_blank (l : list N) : list N := match l with c :: r => if blank c then skip_blank r else l | [] => [] end.
Inductive kind := Empty | Comment | Command.
(** what the first character after spaces and tabs tells *)
Definition line_kind (l : list N) : kind :=
  match skip_blank l with [] => Empty | c :: _ => if N.eqb c NL then Empty else if N.eqb c HASH then Comment else Command end.
(** The text without its comments: a line of comment is removed, with the empty lines and the spaces
    before the next line; so are the empty lines before a line of comment or the end. Other lines are kept as they
    are. [fresh]: no line was kept since the start or the last comment; [empties]: the empty lines since the last line kept. *)
Fixpoint uncomment (fresh : bool) (empties : list N) (ls : list (list N)) : list N :=
  match ls with
  | [] => []
  | l :: r =>
    match line_kind l with
    | Comment => uncomment true [] r
    | Empty => uncomment fresh (if fresh then [] else empties ++ l) r
    | Command => (if fresh then skip_blank l else empties ++ l) ++ uncomment false [] r
    end
  end.
(** ** Conditions: a line made of a word, a colon, spaces and an end of line *)
Definition word_char (c : N) : bool := isalnum c || N.eqb c 95 || N.eqb c 45.
Definition condition (l name : list N) : Prop :=
  exists sp sp' c w, l = sp ++ name ++ [COLON] ++ sp' ++ [NL] /\ name = c :: w /\ isalpha c = true /\
    forallb blank sp = true /\ forallb word_char w = true /\ forallb (fun c => blank c || N.eqb c CR) sp' = true.
(** the lines after each condition that holds, and those before the first condition *)
Inductive chosen (cibles : list (list N)) : bool -> list (list N) -> list N -> Prop :=
| ch_end : forall keep, chosen cibles keep [] []
| ch_cond : forall keep l name r t, condition l name -> forall keep', (keep' = true <-> In name cibles) -> chosen cibles keep' r t -> chosen cibles keep (l :: r) t
| ch_line : forall keep l r t, (forall name, ~ condition l name) -> chosen cibles keep r t -> chosen cibles keep (l :: r) ((if keep then l else []) ++ t).

(** ** Words *)
Definition space (c : N) : bool := N.eqb c SP || N.eqb c TAB || N.eqb c NL || N.eqb c CR.
Definition plain (c : N) : bool := negb (space c || is_quote c || N.eqb c BS).
(** [inside q t x]: t, found after the opening quote q, stands for x; q is SP for a word that is not quoted. *)
Inductive inside : N -> list N -> list N -> Prop :=
| in_nil : forall q, inside q [] []
| in_escape : forall q c t x, inside q t x -> inside q (BS :: c :: t) (c :: x)
| in_plain : forall q c t x, plain c = true -> inside q t x -> inside q (c :: t) (c :: x)
| in_space : forall q c t x, q <> SP -> c = SP \/ c = NL \/ c = CR -> inside q t x -> inside q (c :: t) (SP :: x)
| in_tab : forall q t x, q <> SP -> inside q t x -> inside q (TAB :: t) x
| in_nested : forall q q' u y t x, is_quote q' = true -> q' <> q -> inside q' u y -> inside q t x -> inside q (q' :: u ++ q' :: t) (q' :: y ++ q' :: x).
Definition onto_first (c : N) (ws : list (list N)) : list (list N) := match ws with [] => [] | w :: r => (c :: w) :: r end.
(** [splits t ws]: the words of t are ws *)
Inductive splits : list N -> list (list N) -> Prop :=
| sp_nil : splits [] []
| sp_space : forall c t ws, space c = true -> splits t ws -> splits (c :: t) ws
| sp_quoted : forall q u x t ws, is_quote q = true -> inside q u x -> splits t ws -> splits (q :: u ++ q :: t) (x :: ws)
| sp_word : forall c u x t ws, plain c = true -> inside SP u x -> (t = [] \/ exists b t', t = b :: t' /\ space b = true) -> splits t ws -> splits (c :: u ++ t) ((c :: x) :: ws)
| sp_escape : forall c t ws, splits t ws -> splits (BS :: c :: t) (onto_first c ws)
| sp_lone_escape : splits [BS] [].

(** ** What the file f is read as *)
Definition args_of (op : operation) (targets : list (list N)) (f : list N) (ws : list (list N)) : Prop :=
  exists t, chosen (targets ++ str "all" :: op_targets op) true (lines (uncomment true [] (lines f))) t /\ splits t ws.
(** how to write arguments so that they are read as they are *)
Definition special (c : N) : bool := is_quote c || N.eqb c BS || N.eqb c TAB || N.eqb c NL || N.eqb c CR.
Definition quoted (w : list N) : list N := 34%N :: flat_map (fun c => if special c then [BS; c] else [c]) w ++ [34%N].
(** ** A hide_file as a file *)
(** the bytes shown *)
Definition shown (f : list N) (m : list partie) : list N := concat (map (fun p => firstn (longueur p) (skipn (debut p) f)) m).
(** a plain file holding v, at q, used by the same caller *)
Fixpoint pdo_all (v : list N) (q : nat) (os : list hop) : list hout :=
  match os with
  | [] => []
  | Skip p :: r => if p <? List.length v then Moved true :: pdo_all v p r else Moved false :: pdo_all v q r
  | Read1 :: r => Got (firstn 1 (skipn q v)) :: pdo_all v (Nat.min (S q) (List.length v)) r
  | Tell :: r => At q :: pdo_all v q r
  end.
(** ** A file written as sections: a condition then the words, one a line *)
Definition qline (w : list N) : list N := quoted w ++ [NL].
(** a name of condition *)
Definition name_ok (name : list N) : Prop := match name with c :: w => isalpha c = true /\ forallb word_char w = true | [] => False end.
Definition section := (list N * list (list N))%type.
Definition sec_lines (s : section) : list (list N) := (fst s ++ [COLON; NL]) :: map qline (snd s).
Definition picked (cibles : list (list N)) (s : section) : list (list N) := if in_dec (list_eq_dec N.eq_dec) (fst s) cibles then snd s else [].
