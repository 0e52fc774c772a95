(** C61: format control strings. *)
From Coq Require Import ZArith Lia.
From Verif Require Import Base NumStrModel NumStrSpec FmtModel FmtSpec FmtProofs.
Local Open Scope Z_scope.

(** io's format-to-string writes what the control string says: text as it is, each directive with the next
    argument, justified in its field.  Arguments left over are ignored. *)
Theorem C61_format : forall p ps args, Forall piece_ok ps -> suits ps args ->
  exists text, format_to_string p (spell ps) args = Val text /\ outputs p ps args text.
Proof. exact format_spec. Qed.
Print Assumptions C61_format.

(** A percent sign at the end of the control string, with or without a field, is an error. *)
Theorem C61_incomplete : forall p ps args f, Forall piece_ok ps -> suits ps args -> field_ok f ->
  exists msg, format_to_string p (spell ps ++ 37 :: spell_field f) args = Signal msg.
Proof.
  intros p ps args f HF Hs Hf. destruct (format_reject p ps args f [] HF Hs Hf (or_introl eq_refl)) as (msg & H).
  exists msg. by rewrite app_nil_r in H.
Qed.
Print Assumptions C61_incomplete.

(** So is an unknown directive, whatever follows it. *)
Theorem C61_unknown : forall p ps args f d rest, Forall piece_ok ps -> suits ps args -> field_ok f ->
  ~ known d -> d <> 37 -> ~ (48 <= d <= 57) -> d <> 45 ->
  exists msg, format_to_string p (spell ps ++ 37 :: spell_field f ++ d :: rest) args = Signal msg.
Proof.
  intros p ps args f d rest HF Hs Hf Hk H1 H2 H3. apply format_reject; [done|done|done|]. right.
  eexists d, rest, _. split; [done|]. split; [unfold class_digit; lia|by apply dispatch_unknown].
Qed.
Print Assumptions C61_unknown.

(** So is an argument that a numeric directive or %m cannot print; a missing argument is #f. *)
Theorem C61_wrong_argument : forall p ps args f d rest, Forall piece_ok ps -> suits ps args -> field_ok f -> known d ->
  let a := match args !! taken ps with Some a => a | None => AFalse end in
  ~ accepts d a -> (forall z, a = AInt z -> fits z) ->
  exists msg, format_to_string p (spell ps ++ 37 :: spell_field f ++ d :: rest) args = Signal msg.
Proof.
  intros p ps args f d rest HF Hs Hf Hk a Ha Hfit. apply format_reject; [done|done|done|]. right.
  destruct (accepts_dec_signal p d a Hk Ha Hfit) as (msg & Hmsg).
  exists d, rest, msg. split; [done|]. split; [apply known_class; tauto|done].
Qed.
Print Assumptions C61_wrong_argument.

(** Missing arguments are taken to be #f, for every control string. *)
Theorem C61_missing_arguments : forall p s args n,
  format_to_string p s (args ++ replicate n AFalse) = format_to_string p s args.
Proof. intros. apply missing_arguments. Qed.
Print Assumptions C61_missing_arguments.

(** Whatever the control string, format ends with a string or an error. *)
Theorem C61_terminates : forall p s args, (forall z, In (AInt z) args -> fits z) ->
  (exists text, format_to_string p s args = Val text) \/ (exists msg, format_to_string p s args = Signal msg).
Proof.
  intros p s args Hfit. unfold format_to_string.
  assert (H : settled (format_loop p (S (length s)) s args 0 0 [])).
  { apply format_settled; [done|lia]. }
  destruct H as [H1 H2]. destruct (format_loop _ _ _ _ _ _ _); [by left; eexists|by right; eexists|done|done].
Qed.
Print Assumptions C61_terminates.

(** The manual allows any integer as the width; a width of zero, which ought to leave the output as it is, is an
    error. *)
Theorem C61_zero_width_refuted : forall p,
  ~ (forall f d a, Forall (fun c => 48 <= c <= 57) (width_digits f) -> width_digits f <> [] -> known d -> accepts d a ->
     exists text, format_to_string p (37 :: spell_field (Some f) ++ [d]) [a] = Val text).
Proof.
  intros p H. destruct (H (Field false [48]) 100 (AInt 5)) as (text & E).
  - by repeat constructor; lia.
  - done.
  - right; right; left. cbn. tauto.
  - right; right; left. split; [cbn; tauto|]. exists 5. split; [done|]. unfold fits. lia.
  - vm_compute in E. done.
Qed.
Print Assumptions C61_zero_width_refuted.

(** A minus sign among the digits of a width ought to be an error, but is read as a digit worth -3: "%5-1d" has
    width 471. *)
Theorem C61_dash_refuted : forall p,
  ~ (forall s args text, format_to_string p s args = Val text -> exists ps, Forall piece_ok ps /\ spell ps = s) /\
  exists text, format_to_string p (codes "%5-1d") [AInt 7] = Val text /\ length text = 471%nat.
Proof.
  intros p. assert (E : exists text, format_to_string p (codes "%5-1d") [AInt 7] = Val text /\ length text = 471%nat).
  { eexists. split; vm_compute; reflexivity. }
  split; [|done]. intros H. destruct E as (text & E & _). apply H in E. exact (dash_not_spelled (codes "1d") E).
Qed.
Print Assumptions C61_dash_refuted.

(** common-dylan's format-to-string takes exactly the control strings without fields whose directives have arguments
    of the right class, and writes what they say; everything else is an error. *)
Theorem C61_simple_format : forall p s args, (forall z, In (AInt z) args -> fits z) ->
  (exists ps text, s = spell ps /\ Forall no_field ps /\ simple_suits ps args /\ simple_outputs p ps args text /\
     simple_format_to_string p s args = Val text) \/
  ((exists msg, simple_format_to_string p s args = Signal msg) /\
   ~ exists ps, s = spell ps /\ Forall no_field ps /\ simple_suits ps args).
Proof. intros p s args Hfit. exact (simple_exact p args Hfit (length s) s 0 [] ltac:(lia)). Qed.
Print Assumptions C61_simple_format.

(** Examples. *)
Definition example_printer := Printer (fun _ => codes "#f") (fun _ => codes "#f").
Definition example_pieces : list piece :=
  [Directive (Some (Field false [53])) 100; Text 124; Directive (Some (Field true [49; 48])) 61; Text 10; Directive None 120; Percent None; Directive None 115].
Example C61_ex_spell : spell example_pieces = codes "%5d|%-10=
%x%%%s".
Proof. reflexivity. Qed.
Example C61_ex_ok : Forall piece_ok example_pieces /\ suits example_pieces [AInt (-42); AFalse; AInt 255; AStr (codes "abc")].
Proof.
  split.
  - unfold example_pieces. repeat (apply List.Forall_cons; [|]); [..|apply List.Forall_nil]; cbn; unfold known, fits, width; cbn;
      repeat split; try lia; try tauto; repeat constructor; lia.
  - cbn. unfold accepts, fits. cbn. split; [|split; [|split; [|split; [|done]]]].
    + right; right; left. split; [tauto|]. exists (-42). split; [done|lia].
    + tauto.
    + right; right; left. split; [tauto|]. exists 255. split; [done|lia].
    + tauto.
Qed.
Example C61_ex : format_to_string example_printer (spell example_pieces) [AInt (-42); AFalse; AInt 255; AStr (codes "abc")] =
  Val (codes "  -42|#f        
ff%abc").
Proof. vm_compute. reflexivity. Qed.
Example C61_ex_unknown : ~ known 122.
Proof. unfold known. cbn. lia. Qed.
Example C61_ex_wrong : known 100 /\ ~ accepts 100 (AStr [97]).
Proof.
  split; [right; right; left; cbn; tauto|]. unfold accepts. cbn.
  intros [?|[?|[[_ (z & ? & _)]|[[_ (n & ?)]|[[?|?] _]]]]]; first [lia|congruence].
Qed.
Example C61_ex_simple : simple_format_to_string example_printer (codes "%x %= %c%%") [AInt 255; AStr (codes "hi"); AChr 33] = Val (codes "FF ""hi"" !%").
Proof. vm_compute. reflexivity. Qed.
Example C61_ex_simple_bad : simple_format_to_string example_printer (codes "%5d") [AInt 255] = Signal "Invalid format directive".
Proof. vm_compute. reflexivity. Qed.
