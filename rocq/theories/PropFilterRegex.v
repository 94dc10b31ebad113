(** * PropFilterRegex: C57, -P with regular expressions

    What -ar -P excludes, with a small grammar of extended regular expressions (regex(7)) and the
    words each matches; regexec is asked to answer according to them for the expression dar makes. *)
From Coq Require Import List.
From Verif Require Import Base PathModel PropPath MaskModel PropMask FilterModel FilterSpec FilterProof FilterProof2 PropFilter.
Local Open Scope nat_scope.

(** ** Regular expressions: how they are written and what they match as a whole *)
Inductive ere := Eps | Chr (c : N) | Any | Grp (e : ere) | Star (e : ere) | Plus (e : ere) | Opt (e : ere) | Cat (a b : ere) | Alt (a b : ere).
Definition special (c : N) : Prop := In c [46; 63; 43; 42; 94; 36; 91; 124; 123; 40; 41; 92]%N. (* . ? + * ^ $ [ | { ( ) backslash *)
Inductive writes : ere -> str -> Prop :=
| w_eps : writes Eps []
| w_chr c : ~ special c -> writes (Chr c) [c]
| w_esc c : special c -> writes (Chr c) [92; c]%N
| w_any : writes Any [46]%N
| w_grp e s : writes e s -> writes (Grp e) (40%N :: s ++ [41]%N)
| w_star e s : atom e -> writes e s -> writes (Star e) (s ++ [42]%N)
| w_plus e s : atom e -> writes e s -> writes (Plus e) (s ++ [43]%N)
| w_opt e s : atom e -> writes e s -> writes (Opt e) (s ++ [63]%N)
| w_cat a b s t : branch a -> branch b -> writes a s -> writes b t -> writes (Cat a b) (s ++ t)
| w_alt a b s t : writes a s -> writes b t -> writes (Alt a b) (s ++ 124%N :: t)
with atom : ere -> Prop := a_chr c : atom (Chr c) | a_any : atom Any | a_grp e : atom (Grp e)
with branch : ere -> Prop := b_alone e : (forall a b, e <> Alt a b) -> branch e.
Inductive word : ere -> str -> Prop :=
| m_eps : word Eps []
| m_chr c : word (Chr c) [c]
| m_any c : word Any [c]
| m_grp e s : word e s -> word (Grp e) s
| m_star0 e : word (Star e) []
| m_star e s t : word e s -> word (Star e) t -> word (Star e) (s ++ t)
| m_plus e s t : word e s -> word (Star e) t -> word (Plus e) (s ++ t)
| m_opt0 e : word (Opt e) []
| m_opt e s : word e s -> word (Opt e) s
| m_cat a b s t : word a s -> word b t -> word (Cat a b) (s ++ t)
| m_left a b s : word a s -> word (Alt a b) s
| m_right a b s : word b s -> word (Alt a b) s.

(** the C library matches ^e$ as a whole, when no alternative is at its top *)
Definition matches_whole (L : library) (e : ere) : Prop :=
  forall s, branch e -> writes e s -> exists f, rgx L true (94%N :: s ++ [36]%N) = Some f /\ forall x, f x = true <-> word e x.

(** ** What dar makes of it *)
Fixpoint lit (s : str) : ere := match s with [] => Eps | c :: r => Cat (Chr c) (lit r) end.
Definition below : ere := Opt (Grp (Cat (Chr SLASH) (Plus Any))).
Definition whole (root : list str) (initial : bool) (e : ere) : ere :=
  let rest := Cat (if initial then Eps else Star Any) (Cat e below) in
  match root with [] => Cat (Chr SLASH) rest | _ => Cat (lit (string_of root)) (Cat (Chr SLASH) rest) end.

Lemma escaped_special c : escaped c = true <-> special c.
Proof.
  unfold escaped, special. rewrite existsb_exists. split; [intros (d & I & E); apply N.eqb_eq in E; subst; exact I|]. intro I. exists c. split; [exact I|apply N.eqb_refl].
Qed.
Lemma br_lit s : branch (lit s).
Proof. constructor. destruct s; discriminate. Qed.
Lemma writes_lit s : writes (lit s) (escape s).
Proof.
  induction s as [|c s IH]; cbn [lit escape]; [constructor|]. constructor; [constructor; discriminate|apply br_lit| |exact IH].
  destruct (escaped c) eqn:E; [apply w_esc, escaped_special, E|]. apply w_chr. intro H. apply escaped_special in H. congruence.
Qed.
Lemma writes_below : writes below [40; 47; 46; 43; 41; 63]%N.
Proof.
  change [40; 47; 46; 43; 41; 63]%N with ((40 :: ([47] ++ ([46] ++ [43])) ++ [41]) ++ [63])%N. constructor; [constructor|]. constructor. constructor; try (constructor; discriminate).
  - apply w_chr. intro H. repeat (destruct H as [H|H]; [discriminate|]). destruct H.
  - constructor; constructor.
Qed.
Lemma writes_slash : writes (Chr SLASH) [SLASH].
Proof. apply w_chr. intro H. repeat (destruct H as [H|H]; [discriminate|]). destruct H. Qed.
Lemma escape_last s : escape (s ++ [SLASH]) = escape s ++ [SLASH].
Proof. induction s as [|c s IH]; cbn [app escape]; [reflexivity|]. rewrite IH, app_assoc. reflexivity. Qed.
Lemma last_escape : forall s, last (escape s) 94%N = last s 94%N.
Proof.
  induction s as [|c s IH] using rev_ind; [reflexivity|]. rewrite last_last.
  assert (E : escape (s ++ [c]) = escape s ++ (if escaped c then [92%N; c] else [c])).
  { clear IH. induction s as [|d s IH]; cbn [app escape]; [rewrite app_nil_r; reflexivity|]. rewrite IH, app_assoc. reflexivity. }
  rewrite E. destruct (escaped c); [|apply last_last]. change (escape s ++ [92%N; c]) with (escape s ++ [92%N] ++ [c]). rewrite app_assoc. apply last_last.
Qed.
Lemma to_dollar_id s : ~ In 36%N s -> to_dollar s = s.
Proof.
  induction s as [|c s IH]; intro H; cbn [to_dollar]; [reflexivity|]. destruct (N.eqb_spec c 36) as [->|]; [exfalso; apply H; left; reflexivity|]. rewrite IH; [reflexivity|]. intro Q. apply H. right. exact Q.
Qed.
Lemma to_dollar_end s : ~ In 36%N s -> to_dollar (s ++ [36]%N) = s.
Proof.
  induction s as [|c s IH]; intro H; cbn [app to_dollar]; [reflexivity|]. destruct (N.eqb_spec c 36) as [->|]; [exfalso; apply H; left; reflexivity|]. rewrite IH; [reflexivity|]. intro Q. apply H. right. exact Q.
Qed.
Lemma writes_hd e s : writes e s -> hd 0%N s <> 94%N \/ s = [].
Proof.
  induction 1; try (left; cbn; discriminate); auto.
  - left. cbn. intros ->. apply H. cbn. tauto.
  - destruct IHwrites as [X| ->]; [left; destruct s; [cbn; discriminate|exact X]|left; discriminate].
  - destruct IHwrites as [X| ->]; [left; destruct s; [cbn; discriminate|exact X]|left; discriminate].
  - destruct IHwrites as [X| ->]; [left; destruct s; [cbn; discriminate|exact X]|left; discriminate].
  - destruct IHwrites1 as [X| ->]; [|exact IHwrites2]. destruct s; [exact IHwrites2|left; exact X].
  - destruct IHwrites1 as [X| ->]; [left; destruct s; [discriminate|exact X]|left; discriminate].
Qed.
Lemma last_string root : Forall proper root -> root <> [] -> last (string_of root) 94%N <> SLASH.
Proof.
  intros H N0. destruct (exists_last N0) as (l & w & ->). apply Forall_app in H. destruct H as [_ H]. inversion H as [|? ? [(Nw & _) Sw] _]; subst.
  assert (E : exists u, string_of (l ++ [w]) = u ++ w).
  { unfold string_of. destruct l as [|v l]; [exists [SLASH]; reflexivity|]. rewrite join_app by discriminate. exists (SLASH :: join (v :: l) ++ [SLASH]). rewrite <- !app_comm_cons, <- !app_assoc. reflexivity. }
  destruct E as (u & ->). destruct (exists_last Nw) as (w' & c & ->). rewrite app_assoc, last_last. intros ->. apply Sw. apply in_app_iff. right. left. reflexivity.
Qed.

Definition written (initial final : bool) (s : str) : str := (if initial then [94%N] else []) ++ s ++ (if final then [36%N] else []).
Lemma build_whole root initial final e s : Forall proper root -> branch e -> writes e s -> ~ In 36%N s ->
  exists t, build_regex (string_of root) (written initial final s) = 94%N :: t ++ [36]%N /\ writes (whole root initial e) t /\ branch (whole root initial e).
Proof.
  intros HR HB HW ND.
  assert (TD : to_dollar (s ++ (if final then [36%N] else [])) = s) by (destruct final; [apply to_dollar_end, ND|rewrite app_nil_r; apply to_dollar_id, ND]).
  set (mid := if initial then [] else [46; 42]%N).
  set (pre := match root with [] => [SLASH] | _ => escape (string_of root) ++ [SLASH] end).
  exists (pre ++ mid ++ s ++ [40; 47; 46; 43; 41; 63]%N). split; [|split].
  - unfold build_regex.
    assert (R2 : (if N.eqb (last (94%N :: escape (string_of root)) 0%N) SLASH then 94%N :: escape (string_of root) else (94%N :: escape (string_of root)) ++ [SLASH]) = 94%N :: pre).
    { assert (LS : last (94%N :: escape (string_of root)) 0%N = last (string_of root) 94%N).
      { rewrite <- last_escape. generalize (escape (string_of root)) as l. induction l as [|c l IH]; [reflexivity|]. destruct l; [reflexivity|]. cbn [last] in *. exact IH. }
      rewrite LS. unfold pre. destruct root as [|w r]; [reflexivity|]. destruct (N.eqb_spec (last (string_of (w :: r)) 94%N) SLASH) as [E|]; [|reflexivity].
      exfalso. revert E. apply last_string; [exact HR|discriminate]. }
    cbv zeta. rewrite R2.
    assert (R3 : match written initial final s with c :: r => if N.eqb c 94 then (94%N :: pre) ++ to_dollar r else (94%N :: pre) ++ [46; 42]%N ++ to_dollar (written initial final s) | [] => (94%N :: pre) ++ [46; 42]%N end
      = (94%N :: pre) ++ mid ++ s).
    { unfold written, mid. destruct initial; cbn [app]; [rewrite N.eqb_refl, TD; reflexivity|].
      pose proof (writes_hd e s HW) as HD. destruct (s ++ (if final then [36%N] else [])) as [|c r] eqn:E.
      - apply app_eq_nil in E. destruct E as [-> _]. reflexivity.
      - destruct (N.eqb_spec c 94) as [->|_]; [|rewrite TD; reflexivity]. exfalso. destruct s as [|c s]; [destruct final; discriminate|]. injection E as -> _. destruct HD as [HD|HD]; [apply HD; reflexivity|discriminate]. }
    rewrite R3. cbn [app]. rewrite <- !app_assoc. reflexivity.
  - assert (REST : writes (Cat (if initial then Eps else Star Any) (Cat e below)) (mid ++ s ++ [40; 47; 46; 43; 41; 63]%N)).
    { constructor; [destruct initial; constructor; discriminate|constructor; discriminate| |].
      - unfold mid. destruct initial; [constructor|]. change [46; 42]%N with ([46] ++ [42])%N. constructor; constructor.
      - constructor; [exact HB|constructor; discriminate|exact HW|apply writes_below]. }
    unfold whole, pre. destruct root as [|w r].
    + constructor; [constructor; discriminate..|apply writes_slash|exact REST].
    + rewrite <- app_assoc. constructor; [apply br_lit|constructor; discriminate|apply writes_lit|]. constructor; [constructor; discriminate..|apply writes_slash|exact REST].
  - unfold whole. destruct root; constructor; discriminate.
Qed.

Lemma word_lit s x : word (lit s) x <-> x = s.
Proof.
  revert x. induction s as [|c s IH]; intro x; cbn [lit]; split.
  - intro H. inversion H. reflexivity.
  - intros ->. constructor.
  - intro H. inversion H as [| | | | | | | | |a b u v Hu Hv| |]; subst. inversion Hu; subst. apply IH in Hv. subst. reflexivity.
  - intros ->. change (c :: s) with ([c] ++ s). constructor; [constructor|]. apply IH. reflexivity.
Qed.
Lemma word_star_any s : word (Star Any) s.
Proof. induction s as [|c s IH]; [constructor|]. change (c :: s) with ([c] ++ s). constructor; [constructor|exact IH]. Qed.
Lemma word_below z : word below z <-> z = [] \/ exists c v, z = SLASH :: c :: v.
Proof.
  unfold below. split.
  - intro H. inversion H as [| | | | | | |e|e s Hs| | |]; subst; [left; reflexivity|]. right. inversion Hs as [| | |e' s' Hc| | | | | | | |]; subst. inversion Hc as [| | | | | | | | |a b u v Hu Hv| |]; subst.
    inversion Hu; subst. inversion Hv as [| | | | | |e u t Ha Ht| | | | |]; subst. inversion Ha; subst. cbn. eauto.
  - intros [->|(c & v & ->)]; [constructor|]. apply m_opt, m_grp. change (SLASH :: c :: v) with ([SLASH] ++ [c] ++ v). constructor; [constructor|]. constructor; [constructor|apply word_star_any].
Qed.
(** an occurrence of a word of [e] ending the text, or followed by a slash and something; at the beginning if asked *)
Definition occurs (initial : bool) (e : ere) (t : str) : Prop :=
  exists x y z, t = x ++ y ++ z /\ (initial = true -> x = []) /\ word e y /\ (z = [] \/ exists c v, z = SLASH :: c :: v).
Lemma word_whole root initial e x : word (whole root initial e) x <-> exists t, x = (match root with [] => [] | _ => string_of root end) ++ SLASH :: t /\ occurs initial e t.
Proof.
  assert (REST : forall t, word (Cat (if initial then Eps else Star Any) (Cat e below)) t <-> occurs initial e t).
  { intro t. split.
    - intro H. inversion H as [| | | | | | | | |a b u v Hu Hv| |]; subst. inversion Hv as [| | | | | | | | |a b y z Hy Hz| |]; subst. exists u, y, z. split; [reflexivity|].
      split; [intros ->; inversion Hu; reflexivity|]. split; [exact Hy|apply word_below, Hz].
    - intros (u & y & z & -> & I & Hy & Hz). constructor; [destruct initial; [rewrite I by reflexivity; constructor|apply word_star_any]|]. constructor; [exact Hy|apply word_below, Hz]. }
  unfold whole. destruct root as [|w r]; [|generalize (string_of (w :: r)) as sr; intro sr]; split.
  - intro H. inversion H as [| | | | | | | | |a b u v Hu Hv| |]; subst. inversion Hu; subst. exists v. split; [reflexivity|apply REST, Hv].
  - intros (t & -> & O). cbn [app]. change (SLASH :: t) with ([SLASH] ++ t). constructor; [constructor|apply REST, O].
  - intro H. inversion H as [| | | | | | | | |a b u v Hu Hv| |]; subst. apply word_lit in Hu. subst u. inversion Hv as [| | | | | | | | |a b y z Hy Hz| |]; subst. inversion Hy; subst.
    exists z. split; [reflexivity|apply REST, Hz].
  - intros (t & -> & O). constructor; [apply word_lit; reflexivity|]. change (SLASH :: t) with ([SLASH] ++ t). constructor; [constructor|apply REST, O].
Qed.
Lemma occurs_more initial e t v : v <> [] -> occurs initial e t -> occurs initial e (t ++ SLASH :: v).
Proof.
  intros Nv (x & y & z & -> & I & Hy & Hz). exists x, y, (z ++ SLASH :: v). rewrite <- !app_assoc. split; [reflexivity|]. split; [exact I|]. split; [exact Hy|].
  right. destruct Hz as [-> |(c & w & ->)]; [|exists c, (w ++ SLASH :: v); reflexivity]. destruct v as [|c v]; [congruence|]. exists c, v. reflexivity.
Qed.
Lemma string_under root q : q <> [] -> string_of (root ++ q) = (match root with [] => [] | _ => string_of root end) ++ SLASH :: join q.
Proof. intro H. destruct root as [|w r]; [reflexivity|]. unfold string_of. rewrite join_app by (auto; discriminate). reflexivity. Qed.

(** -ar -P e: excluded is what has, in its path relative to the root, a word of e that ends the
    path or is followed by a slash; at its beginning when e is given with an initial '^'. A final
    '$' changes nothing. In both modes. *)
Theorem C57_exclude_regex : forall L r root q o e s initial final, good_up L -> paths r = [o] -> included o = false -> file_listing o = false ->
  glob_exp o = false -> branch e -> writes e s -> ~ In 36%N s -> text o = written initial final s ->
  case_sensit o = true -> matches_whole L (whole root initial e) -> Forall proper root -> Forall proper q -> q <> [] ->
  exists m b, subtree L r (Path root false false) = Ok m /\ walked m root q = Ok b /\ (b = true <-> ~ occurs initial e (join q)).
Proof.
  intros L r root q o e s initial final HU EP IO FL GE HB HW ND ET CS MW HR HQ NQ.
  destruct (build_whole root initial final e s HR HB HW ND) as (t & BT & WT & BW).
  destruct (MW t BW WT) as (f & Ef & Pf). rewrite <- BT, <- ET, <- CS in Ef.
  assert (UP : forall p, p <> [] -> f (string_of (root ++ p)) = true <-> occurs initial e (join p)).
  { intros p Np. rewrite Pf, word_whole, string_under by exact Np. split; [intros (u & E & O)|intro O; eauto]. apply app_inv_head in E. injection E as ->. exact O. }
  assert (GP : forall d, Forall (good_path L d root) (paths r)).
  { intro d. rewrite EP. constructor; [|constructor]. unfold good_path. rewrite FL, IO, GE. exists f. split; [exact Ef|]. intros _ x v Nv H. apply Pf in H. apply Pf.
    apply word_whole in H. destruct H as (u & -> & O). apply word_whole. exists (u ++ SLASH :: v). rewrite <- app_assoc. split; [reflexivity|]. apply occurs_more; auto. }
  assert (X : forall d p, p <> [] -> excludes L d root o (root ++ p) <-> occurs initial e (join p)).
  { intros d p Np. unfold excludes. rewrite FL, GE, <- UP by exact Np. split; [intros (f' & E & M); congruence|eauto]. }
  destruct (ordered_filters r) eqn:OR.
  - destruct (C57_ordered_no_pruning L r root q HU OR (GP _)) as (m & b & E & W & B); auto; [rewrite EP; intros o' [<-|[]] _; exact FL|].
    exists m, b. split; [exact E|]. split; [exact W|]. rewrite B, EP, <- (X true) by exact NQ.
    apply (chosen_exc1 (fun o => includes L root o (root ++ q)) (fun o => excludes L true root o (root ++ q)) o IO).
  - destruct (C57_normal_paths L r root q HU OR (GP _) HR HQ NQ) as (m & b & E & W & B). exists m, b. split; [exact E|]. split; [exact W|]. rewrite B, EP. split.
    + intros [H _] O. apply (H o (or_introl eq_refl) IO q []); [symmetry; apply app_nil_r|exact NQ|]. apply X; auto.
    + intro H. split; [|left; intros o' [<-|[]]; exact IO]. intros o' [<-|[]] _ p v Eq Np Y. apply X in Y; [|exact Np]. apply H. subst q.
      destruct v as [|w v]; [rewrite app_nil_r; exact Y|]. rewrite join_app by (auto; discriminate). apply occurs_more; [|exact Y].
      apply Forall_app in HQ. destruct HQ as [_ HQ]. inversion HQ as [|? ? [(Nw & _) _] _]; subst. destruct w; [congruence|]. cbn [join]. destruct v; discriminate.
Qed.

(** The manual: "the given mask matches the relative path". As in regex(7) an expression without
    '$' may match anywhere; but -ar -P o, unlike a search for o, does not exclude "on", whatever
    regexec answering right is used. *)
Theorem C57_regex_end_anchored_refuted : forall L r root o, good_up L -> paths r = [o] -> included o = false -> file_listing o = false ->
  glob_exp o = false -> text o = [111]%N -> case_sensit o = true -> matches_whole L (whole root false (Chr 111)) -> Forall proper root ->
  exists m, subtree L r (Path root false false) = Ok m /\ walked m root [[111; 110]%N] = Ok true.
Proof.
  intros L r root o HU EP IO FL GE ET CS MW HR.
  assert (NS : ~ special 111%N) by (intro H; repeat (destruct H as [H|H]; [discriminate|]); destruct H).
  destruct (C57_exclude_regex L r root [[111; 110]%N] o (Chr 111) [111]%N false false) as (m & b & E & W & B); auto; try discriminate.
  - constructor. discriminate.
  - apply w_chr, NS.
  - intros [H|[]]. discriminate.
  - repeat constructor; try discriminate. intros [H|[H|[]]]; discriminate.
  - exists m. split; [exact E|]. rewrite W. f_equal. apply B. intros (x & y & z & Q & _ & Hy & Hz). inversion Hy; subst. cbn [join] in Q.
    destruct x as [|c [|d x]]; cbn in Q.
    + injection Q as <-. destruct Hz as [Hz|(c & v & Hz)]; discriminate.
    + injection Q as _ Q. discriminate.
    + injection Q as _ _ Q. now destruct x.
Qed.
(** An escaped '$' cuts the expression: "a\$b" given under /r gives the expression ^/r/.*a\(/.+)?$ *)
Theorem C57_regex_dollar_refuted :
  build_regex [47; 114]%N [97; 92; 36; 98]%N = ([94; 47; 114; 47; 46; 42; 97; 92] ++ [40; 47; 46; 43; 41; 63; 36])%N.
Proof. reflexivity. Qed.

(** ** A library meeting the hypothesis, for root / and the expression ^a *)
Definition dec_a (x : str) : bool :=
  match x with
  | a :: b :: z => N.eqb a 47 && N.eqb b 97 && match z with [] => true | [_] => false | c :: _ :: _ => N.eqb c 47 end
  | _ => false
  end.
Definition toy_a : library := {| up := up toy; fnm := fnm toy; rgx := fun _ _ => Some dec_a; lst := lst toy |}.
Example regex_good : good_up toy_a /\ matches_whole toy_a (whole [] true (Chr 97)).
Proof.
  split; [exact toy_up|]. intros s _ _. exists dec_a. split; [reflexivity|]. intro x. rewrite word_whole. split.
  - destruct x as [|a [|b z]]; cbn [dec_a]; try discriminate. rewrite !andb_true_iff, !N.eqb_eq. intros [[-> ->] Hz]. exists (97%N :: z). split; [reflexivity|].
    exists [], [97%N], z. split; [reflexivity|]. split; [auto|]. split; [constructor|]. destruct z as [|c [|d z]]; [auto|discriminate|]. apply N.eqb_eq in Hz. subst. eauto.
  - intros (t & -> & u & y & z & -> & I & Hy & Hz). rewrite I by reflexivity. inversion Hy; subst. destruct Hz as [-> |(c & v & ->)]; reflexivity.
Qed.
Example regex_taken : exists m, subtree toy_a (read_args [Glob false; Select KPath false [94; 97]%N]) (Path [] false false) = Ok m /\
  walked m [] [[97]%N; [98]%N] = Ok false /\ walked m [] [[97; 97]%N] = Ok true /\ walked m [] [[98]%N; [97]%N] = Ok true.
Proof. eexists. split; [reflexivity|]. repeat split; vm_compute; reflexivity. Qed.

Print Assumptions C57_exclude_regex. Print Assumptions C57_regex_end_anchored_refuted. Print Assumptions C57_regex_dollar_refuted.
