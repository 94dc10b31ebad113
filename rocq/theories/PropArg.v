(** * PropArg: C61, what a user may write *)
From Coq Require Import List String Ascii.
From Verif Require Import Base InfinintModel DeciModel ArgModel ArgSpec ArgProof.
Open Scope N_scope.

(** A size is a number maybe followed by one suffix, that stands for a power of the base; nothing else is taken, but the empty text. *)
Theorem C61_sizes : forall base s v, 1 < base -> (ext_size base s = Ok v <-> (s = [] /\ v = 0) \/ size_of base s v).
Proof. exact ext_size_ok. Qed.
Theorem C61_empty_size_is_zero : forall base, ext_size base [] = Ok 0. Proof. reflexivity. Qed.
(** Permissions: U_I is w bits wide. *)
Theorem C61_octal : forall w p v, 9 <= w -> (octal2int w p = Ok v <-> exists x, octal_of p x /\ v = x mod 2 ^ w).
Proof.
  intros w p v W. unfold octal_of. destruct p as [|c p].
  - cbn [octal2int]. assert (L : 438 mod 2 ^ w = 438). { apply N.mod_small. pose proof (pow2_le 9 w W) as B. change (2 ^ 9) with 512 in B. lia. } split.
    + intro H. injection H as <-. exists 438. auto.
    + intros (x & [(_ & ->)|(sp & ds & sp' & E & _)] & ->); [rewrite L; reflexivity|destruct sp; discriminate].
  - cbn [octal2int]. change (octal2int w (c :: p)) with (oct_loop w (c :: p) o_init 0). rewrite oct_init. split.
    + intros (sp & ds & sp' & E & F & D & G & ->). exists (number 8 ds). split; [right; exists sp, ds, sp'; auto 6|reflexivity].
    + intros (x & [(E & _)|(sp & ds & sp' & E & F & D & G & ->)] & ->); [discriminate|]. exists sp, ds, sp'. auto 6.
Qed.
Theorem C61_octal_one_outcome : forall w p, (exists v, octal2int w p = Ok v) \/ octal2int w p = Err Erange.
Proof. intros w [|c p]; [left; eexists; reflexivity|]. apply oct_total. Qed.
Theorem C61_octal_shown_and_read : forall w p, p < 2 ^ w -> octal2int w (int2octal p) = Ok p /\ exists ds, int2octal p = 48 :: ds /\ digits 8 ds /\ number 8 ds = p.
Proof. exact int2octal_ok. Qed.
(** Templates of commands: each %x is replaced by its value, once, all the rest is kept; an unknown %x or a last % is refused. *)
Theorem C61_templates : forall corres hook r, substitute corres hook = Some r <-> expands corres hook r.
Proof. intros corres hook r. apply (substitute_ok corres (List.length hook)). apply le_n. Qed.
Theorem C61_refused_templates : forall corres hook, substitute corres hook = None <-> forall r, ~ expands corres hook r.
Proof.
  intros corres hook. split.
  - intros H r E. apply C61_templates in E. congruence.
  - intro H. destruct (substitute corres hook) as [r|] eqn:E; [|reflexivity]. exfalso. apply (H r), C61_templates, E.
Qed.
Lemma hook_letter : forall i c v, hook_corres i c = Some v <-> In (c, v) (hook_letters i).
Proof.
  intros i c v. unfold hook_corres. cbn [hook_letters In]. split.
  - intro H. repeat match type of H with (if ?a =? ?b then _ else _) = _ => destruct (N.eqb_spec a b) as [E|_]; [injection H as <-; subst; tauto|] end. discriminate.
  - intro H. repeat (destruct H as [H|H]; [injection H as <- <-; reflexivity|]). contradiction.
Qed.
(** In a hook the letters are % p b n N e c u and no other. *)
Theorem C61_hooks : forall i hook r, hook_substitute hook i = Some r <->
  exists ts, Forall (hook_token i) ts /\ hook = flat_map written ts /\ r = flat_map meant ts.
Proof.
  intros i hook r. unfold hook_substitute. rewrite C61_templates. unfold expands.
  assert (K : forall t, token_ok (hook_corres i) t <-> hook_token i t) by (intros [c|c v]; [reflexivity|apply hook_letter]).
  split; intros (ts & F & E); exists ts; (split; [|exact E]); (eapply Forall_impl; [|exact F]); intros t; apply K.
Qed.
Theorem C61_doubled_percent : forall t i, hook_substitute (protected t) i = Some t.
Proof. intros t i. apply C61_templates, protected_expands. reflexivity. Qed.
Theorem C61_values_are_not_expanded : forall i, hook_substitute (str "%p/%b.%n.%e %c %N %u %%p") i =
  Some (s_path i ++ str "/" ++ s_basename i ++ str "." ++ s_num i ++ str "." ++ s_ext i ++ str " " ++ s_context i ++ str " " ++ s_padded i ++ str " " ++ s_url i ++ str " %p").
Proof.
  intro i. apply C61_templates. exists [Pct 112 (s_path i); Lit 47; Pct 98 (s_basename i); Lit 46; Pct 110 (s_num i); Lit 46; Pct 101 (s_ext i); Lit 32; Pct 99 (s_context i); Lit 32; Pct 78 (s_padded i); Lit 32; Pct 117 (s_url i); Lit 32; Pct 37 [37]; Lit 112].
  split; [repeat constructor; discriminate|]. split; [reflexivity|]. cbn. rewrite <- ?app_assoc. reflexivity.
Qed.
(** Any text put in an XML listing is read back as it was. *)
Theorem C61_xml : forall t, xml_read (output2xml t) = Some t.
Proof. exact xml_read_ok. Qed.
Theorem C61_xml_injective : forall t t', output2xml t = output2xml t' -> t = t'.
Proof. intros t t' H. pose proof (xml_read_ok t) as A. rewrite H, xml_read_ok in A. congruence. Qed.
(** Blocks of delta signatures: the value of the formula, the function up to a rounding, kept between the bounds and in U_I. *)
Theorem C61_block_size : forall umax d n, check d = Ok tt -> exists x, approx (func d) n x /\ calculate umax d n = Ok (clamp umax (min_len d) (max_len d) (multiplier d * x / divisor d)).
Proof. intros umax d n H. exists (fs_value (func d) n). split; [apply fs_approx|apply calculate_ok, H]. Qed.
Theorem C61_block_size_accepted : forall d, (check d = Ok tt <-> divisor d <> 0 /\ (max_len d = 0 \/ min_len d <= max_len d)) /\ (check d = Ok tt \/ check d = Err Erange).
Proof.
  intro d. unfold check. destruct (N.eqb_spec (divisor d) 0) as [Z|Z]; [split; [split; [discriminate|tauto]|auto]|].
  destruct (N.eqb_spec (max_len d) 0) as [M|M]; cbn [negb andb]; [split; [tauto|auto]|].
  destruct (N.ltb_spec (max_len d) (min_len d)); (split; [split; [intro; try discriminate; auto|]|auto]). intros (_ & [?|?]); [contradiction|lia]. reflexivity.
Qed.
Theorem C61_block_size_bounds : forall umax d n, check d = Ok tt -> min_len d <= umax -> exists x, calculate umax d n = Ok x /\ min_len d <= x <= umax /\ (max_len d <> 0 -> x <= max_len d).
Proof.
  intros umax d n H M. eexists. split; [apply calculate_ok, H|]. unfold check in H. destruct (divisor d =? 0); [discriminate|]. unfold clamp. destruct (N.eqb_spec (max_len d) 0) as [Z|Z]; cbn [negb andb] in H; [lia|].
  destruct (N.ltb_spec (max_len d) (min_len d)); [discriminate|]. lia.
Qed.
Theorem C61_block_size_grows : forall umax d n n' x x', check d = Ok tt -> n <= n' -> calculate umax d n = Ok x -> calculate umax d n' = Ok x' -> x <= x'.
Proof.
  intros umax d n n' x x' H L E E'. rewrite (calculate_ok umax d n H) in E. rewrite (calculate_ok umax d n' H) in E'. injection E as <-. injection E' as <-. apply clamp_mono. unfold check in H. destruct (N.eqb_spec (divisor d) 0); [discriminate|].
  apply N.div_le_mono; [assumption|]. apply N.mul_le_mono_l, fs_mono, L.
Qed.
(** Lists with a separator: a last empty field does not count. *)
Theorem C61_lists : forall sep v fs, split sep v = fs <-> fields_of sep v fs.
Proof. exact split_spec. Qed.

(** ** Concrete cases *)
Theorem C61_case : ext_size 1024 (str "10M") = Ok (10 * 1024 * 1024) /\ ext_size 1000 (str "3Q") = Ok (3 * 1000 ^ 10) /\ ext_size 1024 (str "k") = Err Erange /\ ext_size 1024 (str "1kM") = Err Edeci /\
  octal2int 32 (str " 0644 ") = Ok 420 /\ octal2int 32 (str "644") = Err Erange /\ int2octal 420 = str "0644" /\
  hook_substitute (str "100%") {| s_path := []; s_basename := []; s_num := []; s_padded := []; s_ext := []; s_context := []; s_url := [] |} = None /\
  output2xml (str "a<b>&'c'") = str "a&lt;b&gt;&amp;&apos;c&apos;" /\
  check {| func := root2; multiplier := 1; divisor := 1; min_len := 2048; max_len := 131072 |} = Ok tt /\
  calculate (2 ^ 32 - 1) {| func := root2; multiplier := 1; divisor := 1; min_len := 2048; max_len := 131072 |} (2 ^ 24) = Ok 4096 /\
  split 58 (str "gzip:5:") = [str "gzip"; str "5"] /\ split 58 (str "::10k") = [[]; []; str "10k"].
Proof. repeat (split; [vm_compute; reflexivity|]). vm_compute. reflexivity. Qed.

(** ** What one may expect and does not hold *)
(** An octal number too large for U_I is not refused: it is cut. *)
Theorem C61_octal_overflow_refuted : exists p, octal_of p (8 ^ 11) /\ octal2int 32 p = Ok 0.
Proof.
  exists (str "0100000000000"). split; [right; exists [], (str "100000000000"), []; repeat split; try constructor; cbn; repeat constructor; lia|vm_compute; reflexivity].
Qed.
(** A last empty field is not seen: "gzip:" is read as "gzip". *)
Theorem C61_last_empty_field_refuted : forall sep f, ~ In sep f -> f <> [] -> split sep (f ++ [sep]) = [f] /\ split sep f = [f].
Proof.
  intros sep f H NE. split; apply split_spec; (split; [constructor; [exact H|constructor]|]); [left; cbn; rewrite app_nil_r; reflexivity|right; exists [], f; auto].
Qed.
(** Characters an XML text may not hold at all are left. *)
Theorem C61_xml_control_characters_kept : output2xml [1; 0; 27] = [1; 0; 27].
Proof. reflexivity. Qed.

Print Assumptions C61_sizes.
Print Assumptions C61_empty_size_is_zero.
Print Assumptions C61_octal.
Print Assumptions C61_octal_one_outcome.
Print Assumptions C61_octal_shown_and_read.
Print Assumptions C61_templates.
Print Assumptions C61_refused_templates.
Print Assumptions C61_hooks.
Print Assumptions C61_doubled_percent.
Print Assumptions C61_values_are_not_expanded.
Print Assumptions C61_xml.
Print Assumptions C61_xml_injective.
Print Assumptions C61_block_size.
Print Assumptions C61_block_size_accepted.
Print Assumptions C61_block_size_bounds.
Print Assumptions C61_block_size_grows.
Print Assumptions C61_lists.
Print Assumptions C61_case.
Print Assumptions C61_octal_overflow_refuted.
Print Assumptions C61_last_empty_field_refuted.
Print Assumptions C61_xml_control_characters_kept.
