(** Razor documents with blocks: what a command becomes. *)
From Coq Require Import String Ascii List ZArith NArith Bool Lia ZifyBool ZifyN Permutation.
From Verif Require Import GoStr GoStrFacts Utf8 QuoteModel TemplateModel TemplateSpec TemplateProofs TextModel TextProofs3 RazorExprModel RazorExprProofs RazorWordsModel RazorWordsSpec RazorWordsProofs
  ReModel ReSyntaxModel RazorTableModel RazorAssignModel ReSound RazorRefSpec RazorRefAuto RazorRefProofs RazorRefMain RazorAsgSpec RazorAsgText RazorAsgExpr RazorAsgExpr2 RazorAsgGo RazorAsgGo2 RazorAsgVal RazorAsgVal2 RazorAsgVal3 RazorAsgWrite RazorAsgMatch
  BlockSpec BlockMatch BlockMatch2.
From Verif Require RegexSpec RegexProofs5.
Import ListNotations.
Local Open Scope char_scope.

(** A match of the whole text *)
Lemma whole_replace : forall c repl s pv g, s <> [] -> starts_low s -> match_at (c_re c) (None, s) = Some ((pv, []), g) -> (forall p, match_at (c_re c) (p, []) = None) ->
  replace_all_string c repl s = expand (named_group (c_names c) s g) repl.
Proof.
  intros c repl s pv g NE L M Z. unfold replace_all_string, replace_re. generalize (length s). intro n.
  assert (E : replace_matches (S n) (c_re c) (fun m g => expand (named_group (c_names c) m g) repl) false (None, [] ++ s ++ []) =
    [] ++ expand (named_group (c_names c) s g) repl ++ replace_matches n (c_re c) (fun m g => expand (named_group (c_names c) m g) repl) true (pv, [])).
  { apply (replace_skip n (c_re c) (fun m g => expand (named_group (c_names c) m g) repl) false [] s [] None pv g); [exact NE | exact L | | rewrite app_nil_r; exact M].
    intros v x V X. symmetry in V. apply app_eq_nil in V. destruct V as [_ V]. contradiction. }
  cbn [app] in E. rewrite app_nil_r in E. eapply eq_trans; [exact E|].
  assert (R : replace_matches n (c_re c) (fun m g => expand (named_group (c_names c) m g) repl) true (pv, []) = []).
  { destruct n as [|n]; [reflexivity|]. cbn [replace_matches snd length]. unfold search. rewrite Z. reflexivity. }
  rewrite R. apply app_nil_r.
Qed.
(** The template with the translated value *)
Definition parts_of (v : str) : list RegexSpec.tpart := map (fun c => if Ascii.eqb c "$" then RegexSpec.TDollar else RegexSpec.TText [c]) v.
Lemma parts_text : forall v, flat_map RegexSpec.tpart_text (parts_of v) = doubled v.
Proof. induction v as [|c v IH]; [reflexivity|]. cbn [parts_of map flat_map doubled]. unfold parts_of in IH. rewrite IH. destruct (Ascii.eqb_spec c "$") as [->|_]; reflexivity. Qed.
Lemma parts_output : forall f v, flat_map (RegexSpec.tpart_output f) (parts_of v) = v.
Proof. intros f. induction v as [|c v IH]; [reflexivity|]. cbn [parts_of map flat_map]. unfold parts_of in IH. rewrite IH. destruct (Ascii.eqb_spec c "$") as [->|_]; reflexivity. Qed.
Lemma parts_ok : forall v l, RegexSpec.tparts_ok l -> RegexSpec.tparts_ok (parts_of v ++ l).
Proof.
  induction v as [|c v IH]; intros l H; [exact H|]. cbn [parts_of map app RegexSpec.tparts_ok]. split; [|exact (IH l H)]. destruct (Ascii.eqb_spec c "$") as [->|N]; [exact I|]. intros [E|[]]. exact (N E).
Qed.
Definition command_parts (v : str) : list RegexSpec.tpart :=
  [RegexSpec.TText $"{{"; RegexSpec.TBraces $"reduce1"; RegexSpec.TText $" "; RegexSpec.TBraces $"command"; RegexSpec.TText $" "; RegexSpec.TBraces $"assign"] ++ parts_of v ++
  [RegexSpec.TText $" "; RegexSpec.TBraces $"reduce2"; RegexSpec.TText $"}}"].
Lemma command_parts_ok : forall v, RegexSpec.tparts_ok (command_parts v).
Proof.
  assert (N : forall n, forallb (fun c => let n := N_of_ascii c in RegexSpec.is_in 48 57 n || RegexSpec.ascii_letter n) n && negb (str_eqb n []) = true -> RegexSpec.name_ok n).
  { intros n H. apply andb_true_iff in H. destruct H as [H NE]. split; [intros ->; discriminate NE|]. apply Forall_forall. intros c I. rewrite forallb_forall in H. specialize (H c I). apply orb_true_iff in H. destruct H as [H|H]; [left | right; left]; exact H. }
  assert (D : forall s, existsb (Ascii.eqb "$") s = false -> ~ In "$" s) by (intros s H I; assert (X : existsb (Ascii.eqb "$") s = true) by (apply existsb_exists; exists "$"; split; [exact I | reflexivity]); congruence).
  intros v. unfold command_parts. cbn [app RegexSpec.tparts_ok]. repeat (split; [first [apply N; reflexivity | apply D; reflexivity]|]). apply parts_ok. cbn [RegexSpec.tparts_ok]. repeat (split; [first [apply N; reflexivity | apply D; reflexivity]|]). exact I.
Qed.
Lemma command_template : forall v, replace_all $"${expr}" (doubled v) command_repl = flat_map RegexSpec.tpart_text (command_parts v).
Proof. intro v. unfold command_parts. rewrite !flat_map_app, parts_text. reflexivity. Qed.

Section Value.
Variable beyond : N -> bool.
Variables words signs opers : list (str * str).
Variable parse : str -> option expr.
Variable mode : validation.
Context {P : PrintEnv}.
Hypothesis HW : Permutation words RazorWordsModel.reserved.
Hypothesis HS : Permutation signs symbols.
Hypothesis HO : Permutation opers operator_words.
Variable other : replacement -> parser -> str -> str.
Hypothesis HF : follows_code beyond words signs opers parse mode default_delims other.
Lemma opener_dollar : forall w, opener_ok w -> ~ In "$" (opener_text w).
Proof.
  intros w OK I. destruct w as [|b| | | |b]; cbn [opener_text opener_ok] in *; try (vm_compute in I; intuition discriminate);
    (apply in_app_or in I; destruct I as [I|I]; [vm_compute in I; intuition discriminate|]; apply in_app_or in I; destruct I as [I|I]; [rewrite Forall_forall in OK; apply OK in I; destruct I as [I|I]; discriminate I | vm_compute in I; intuition discriminate]).
Qed.
Lemma command_value : forall r a m w b1 b2 E e b3, c_re (r_re r) = command_re a -> c_names (r_re r) = command_names -> r_replace r = command_repl ->
  (forall s t, eats a s t -> exists r, s = "$" :: r) -> plain_opener w -> opener_ok w -> Forall blank_char b1 -> Forall blank_char b2 -> text_ok E -> parse E = Some e -> expr_ok e -> Forall blank_char b3 ->
  other r PExprSkip (command_text m w b1 b2 E b3) = action m (opener_text w ++ $" " ++ G2 e).
Proof.
  intros r a m w b1 b2 E e b3 RE RN RP HA PW OW F1 F2 T PE OK F3. apply HF; [discriminate | discriminate|]. cbn [razor_parser]. unfold parse_expression.
  set (M := command_text m w b1 b2 E b3). destruct (text_no E T) as (NE & LE & NL).
  assert (VL : value_line E) by (split; [exact LE|]; split; [exact NL|]; destruct T as (_ & H & _); exact H).
  assert (HD : hd "a" E <> "$").
  { destruct T as (V & (c & x & -> & _) & _). cbn [hd]. inversion V as [|? ? C _]; subst. intros ->. unfold value_char in C. destruct C as [C|[C|C]]; [apply is_word_iff in C; discriminate C | destruct C as [C|C]; discriminate C | cbn in C; intuition discriminate]. }
  assert (LM : exists pv, match_at (c_re (r_re r)) (None, M) = Some ((pv, []), command_groups m w E)).
  { rewrite RE. pose proof (command_lands a m w b1 b2 E b3 [] [] None HA PW OW F1 F2 VL HD F3) as L. cbn [app] in L. rewrite app_nil_r in L. destruct L as (pv & L); [split; [intros c x X; discriminate X | constructor] | left; reflexivity|].
    exists pv. exact L. }
  destruct LM as (pv & LM).
  assert (GA : forall name, multi_match (r_re r) M name = named_group command_names M (command_groups m w E) name).
  { intro name. rewrite (group_at (r_re r) M _ [] pv name LM). rewrite RN. f_equal. pose proof (taken_app None pv M []) as TA. rewrite app_nil_r in TA. exact TA. }
  rewrite !GA.
  replace (named_group command_names M (command_groups m w E) $"expr") with E by (destruct m; reflexivity).
  replace (named_group command_names M (command_groups m w E) $"index") with (@nil ascii) by (destruct m; reflexivity).
  replace (named_group command_names M (command_groups m w E) $"selection") with (@nil ascii) by (destruct m; reflexivity).
  assert (GO : RazorAssignModel.go_text beyond words signs opers E = Ok E) by (apply (go_plain beyond words signs opers HW HS HO); [exact (text_clean E T) | exact (text_dots E T)]).
  assert (GE : match E with [] => Ok [] | _ => RazorAssignModel.go_text beyond words signs opers E end = Ok E) by (destruct E; [contradiction | exact GO]).
  rewrite GE. cbn [bind]. unfold put_parsed.
  assert (PP : forall X Y : res (str * bool), match E with [] => X | _ => Y end = Y) by (intros; destruct E; [contradiction | reflexivity]).
  rewrite PP. rewrite PE. rewrite (node_gen e OK). cbn [bind fst]. f_equal. unfold put_expr. rewrite RP. pose proof (restored e OK) as AG. unfold agrees in AG. rewrite AG. rewrite command_template.
  rewrite (whole_replace (r_re r) _ M pv (command_groups m w E)); [|discriminate | reflexivity | exact LM|].
  2:{ intro p. rewrite RE. reflexivity. }
  rewrite RN. rewrite RegexProofs5.expanded by apply command_parts_ok. unfold command_parts. rewrite !flat_map_app, parts_output.
  set (f := named_group command_names M (command_groups m w E)).
  change (flat_map (RegexSpec.tpart_output f) [RegexSpec.TText $"{{"; RegexSpec.TBraces $"reduce1"; RegexSpec.TText $" "; RegexSpec.TBraces $"command"; RegexSpec.TText $" "; RegexSpec.TBraces $"assign"])
    with ($"{{" ++ f $"reduce1" ++ $" " ++ f $"command" ++ $" " ++ f $"assign" ++ []).
  change (flat_map (RegexSpec.tpart_output f) [RegexSpec.TText $" "; RegexSpec.TBraces $"reduce2"; RegexSpec.TText $"}}"]) with ($" " ++ f $"reduce2" ++ $"}}" ++ []).
  replace (f $"command") with (opener_text w) by (unfold f; destruct m; reflexivity). replace (f $"assign") with (@nil ascii) by (unfold f; destruct m; reflexivity).
  assert (R : ($"{{" ++ f $"reduce1" ++ $" " ++ opener_text w ++ $" " ++ [] ++ []) ++ G2 e ++ $" " ++ f $"reduce2" ++ $"}}" ++ [] = action m (opener_text w ++ $" " ++ G2 e)).
  { unfold action. rewrite <- !app_assoc. unfold f. destruct m; reflexivity. }
  rewrite R. apply unsliced_replace.
  assert (R2 : action m (opener_text w ++ $" " ++ G2 e) = ((if trims_left m then $"{{- " else $"{{ ") ++ opener_text w) ++ $" " ++ G2 e ++ $" " ++ (if trims_right m then $"-}}" else $"}}")).
  { unfold action. rewrite <- !app_assoc. destruct m; reflexivity. }
  rewrite R2. apply unsliced_space; [|apply unsliced_space; [exact (g2_unsliced e OK)|]].
  - apply unsliced_no. intro I. apply in_app_or in I. destruct I as [I|I]; [destruct m; vm_compute in I; intuition discriminate | exact (opener_dollar w OW I)].
  - apply unsliced_no. destruct m; vm_compute; intuition discriminate.
Qed.
End Value.
