(** * C72, continued: the texts themselves *)
Require Import Verif.PyBase Verif.JsonData Verif.Parser Verif.Access Verif.IOInfo Verif.IOVars Verif.Transformers
  Verif.ParaTypes Verif.ParaGen Verif.Cli Verif.Text Verif.ShlexFacts Verif.TextFacts Verif.SpecText2.

(** ** repr of strings
    The characters that Python prints in a different way, by their code: the table is what
    CPython prints. *)
Definition escapes : list (nat * string) :=
  [(0, "\x00"); (1, "\x01"); (2, "\x02"); (3, "\x03"); (4, "\x04"); (5, "\x05"); (6, "\x06"); (7, "\x07"); (8,
   "\x08"); (9, "\t"); (10, "\n"); (11, "\x0b"); (12, "\x0c"); (13, "\r"); (14, "\x0e"); (15, "\x0f"); (16,
   "\x10"); (17, "\x11"); (18, "\x12"); (19, "\x13"); (20, "\x14"); (21, "\x15"); (22, "\x16"); (23, "\x17");
   (24, "\x18"); (25, "\x19"); (26, "\x1a"); (27, "\x1b"); (28, "\x1c"); (29, "\x1d"); (30, "\x1e"); (31,
   "\x1f"); (92, "\\"); (127, "\x7f"); (128, "\x80"); (129, "\x81"); (130, "\x82"); (131, "\x83"); (132, "\x84");
   (133, "\x85"); (134, "\x86"); (135, "\x87"); (136, "\x88"); (137, "\x89"); (138, "\x8a"); (139, "\x8b"); (140,
   "\x8c"); (141, "\x8d"); (142, "\x8e"); (143, "\x8f"); (144, "\x90"); (145, "\x91"); (146, "\x92"); (147,
   "\x93"); (148, "\x94"); (149, "\x95"); (150, "\x96"); (151, "\x97"); (152, "\x98"); (153, "\x99"); (154,
   "\x9a"); (155, "\x9b"); (156, "\x9c"); (157, "\x9d"); (158, "\x9e"); (159, "\x9f"); (160, "\xa0"); (173,
   "\xad")].
Definition printed_as (quote c : ascii) : string :=
  match find (fun e => Nat.eqb (fst e) (nat_of_ascii c)) escapes with
  | Some (_, t) => t
  | None => if Ascii.eqb c quote then String "\" (String c "") else String c ""
  end.
Definition occurs (c : ascii) (s : string) : Prop := exists a b, s = a +++ String c b.
(** The quotes are double quotes exactly if the string contains single quotes and no double quotes. *)
Definition quote_of (s : string) (q : ascii) : Prop :=
  q = """"%char /\ occurs "'" s /\ ~ occurs """" s \/ q = "'"%char /\ (~ occurs "'" s \/ occurs """" s).
Lemma has_char_occurs c s : has_char c s = true <-> occurs c s.
Proof.
  induction s as [|d s IH]; cbn.
  - split; [discriminate|]. intros (a & b & E). now destruct a.
  - destruct (Ascii.eqb_spec c d) as [->|N]; cbn.
    + split; [intros _; exists "", s; reflexivity|reflexivity].
    + rewrite IH. split; [intros (a & b & ->); exists (String d a), b; reflexivity|].
      intros (a & b & E). destruct a as [|x a]; cbn in E; injection E as E1 E2; [congruence|]. subst. now exists a, b.
Qed.
Lemma repr_char_table : forall q c, q = """"%char \/ q = "'"%char -> repr_char q c = printed_as q c.
Proof. intros q c [-> | ->]; destruct c as [[] [] [] [] [] [] [] []]; vm_compute; reflexivity. Qed.
Theorem C72_repr : forall s, exists q, quote_of s q /\
  repr_str s = String q (cat_all (map (printed_as q) (list_ascii_of_string s)) +++ String q "").
Proof.
  intros s. unfold repr_str. set (q := if has_char "'" s && negb (has_char """" s) then """"%char else "'"%char). exists q. split.
  - unfold quote_of, q. rewrite <- !has_char_occurs. destruct (has_char "'" s), (has_char """" s); cbn; intuition discriminate.
  - assert (Q : q = """"%char \/ q = "'"%char) by (unfold q; destruct (_ && _); auto). clearbody q. unfold one_char. cbn [String.append]. f_equal. f_equal.
    induction s as [|c s IH]; [reflexivity|]. cbn [repr_chars list_ascii_of_string map cat_all fold_right]. now rewrite repr_char_table, IH.
Qed.
Print Assumptions C72_repr.
Example C72_repr_case : repr_str ("it's a " +++ one_char "092" +++ one_char "009" +++ one_char "027") =
  """it's a \\\t\x1b""" /\ quote_of "it's" """" /\ quote_of "plain" "'".
Proof.
  split; [vm_compute; reflexivity|]. unfold quote_of. rewrite <- !has_char_occurs. cbn. intuition discriminate.
Qed.

(** ** Objects line by line *)
Lemma concat_all l : String.concat "" l = cat_all l.
Proof.
  induction l as [|x l IH]; [reflexivity|]. destruct l as [|y l]; [cbn; now rewrite sapp_nil_r|].
  change (String.concat "" (x :: y :: l)) with (x +++ "" +++ String.concat "" (y :: l)). rewrite IH. reflexivity.
Qed.
(** The name of the class, then each attribute on a line of its own, after a tab. *)
Theorem C72_object_lines : forall cls attrs, attrs <> [] -> text (SObj cls attrs) =
  all_lines (("<class '" +++ cls +++ "'>: ") :: map (fun a => tab_char +++ " " +++ fst a +++ ": " +++ text (snd a)) attrs).
Proof.
  intros cls attrs N. unfold all_lines. rewrite concat_all. cbn [text]. unfold standard_repr.
  assert (M : map (fun p => tab +++ " " +++ fst p +++ ": " +++ snd p +++ newline) (map (fun p => (fst p, text (snd p))) attrs) =
    map (fun x => x +++ line_end) (map (fun a => tab_char +++ " " +++ fst a +++ ": " +++ text (snd a)) attrs)).
  { rewrite !map_map. apply map_ext. intros [n v]. cbn [fst snd]. rewrite !sapp_assoc. reflexivity. }
  rewrite M. destruct attrs as [|a attrs]; [now destruct N|]. cbn [map cat_all fold_right]. rewrite !sapp_assoc. reflexivity.
Qed.
Print Assumptions C72_object_lines.
Example C72_object_lines_case : text (shown_fo (Option_ "-k" "2")) = all_lines ["<class 'pash_annotations.datatypes.BasicDatatypes.Option'>: ";
  "	 option_name: -k"; "	 option_arg: 2"].
Proof. vm_compute. reflexivity. Qed.
(** Lists are in brackets, with commas between the elements; strings are quoted there. *)
Theorem C72_list_text : forall l, text (SList (map SStr l)) = "[" +++ String.concat ", " (map repr_str l) +++ "]".
Proof. intros l. cbn [text]. unfold join. now rewrite map_map. Qed.
Print Assumptions C72_list_text.
(** The two flags of parallelizability information are printed as Python prints them. *)
Theorem C72_para_lines : forall other package i, exists first,
  text (shown_para_info other package i) =
  all_lines [first; tab_char +++ " parallelizer_list: " +++ text (SList (map (shown_parallelizer other) (parallelizer_list i)));
             tab_char +++ " round_robin_compatible_with_cat: " +++ (if round_robin_compatible_with_cat i then "True" else "False");
             tab_char +++ " is_commutative: " +++ (if is_commutative i then "True" else "False")].
Proof.
  intros other package i. eexists. unfold shown_para_info. rewrite C72_object_lines by discriminate. cbn [map fst snd]. reflexivity.
Qed.
Print Assumptions C72_para_lines.
Example C72_para_lines_case : text (shown_para_info (fun _ => "") "" new_para_info) = all_lines
  ["<class 'annotation_generation.datatypes.ParallelizabilityInfo.ParallelizabilityInfo'>: "; "	 parallelizer_list: []";
   "	 round_robin_compatible_with_cat: False"; "	 is_commutative: False"].
Proof. vm_compute. reflexivity. Qed.
