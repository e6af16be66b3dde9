(** * Theorems about the texts of the command data (C80) *)
From Coq Require Import NArith Lia.
Require Import Verif.PyBase Verif.SpecShlex Verif.JsonData Verif.ArgsToJson Verif.ShippedData Verif.ShippedText
  Verif.Json Verif.SpecArgs Verif.ArgsFacts Verif.P_Args Verif.SpecJson Verif.JsonFacts Verif.JsonFacts2.

(** ** C80 *)
(** [json.loads] gives a value exactly if the text is a JSON document for it. *)
Theorem C80_loads_iff : forall t v, loads t = Ok v <-> document v t.
Proof. exact loads_iff. Qed.
Print Assumptions C80_loads_iff.
(** Every other text raises ValueError (JSONDecodeError). *)
Theorem C80_loads_raises_iff : forall t, loads t = Raise ValueError <-> forall v, ~ document v t.
Proof.
  intros t. split.
  - intros E v D. apply loads_iff in D. congruence.
  - intros N. destruct (loads t) as [v|e] eqn:E; [apply loads_iff in E; now destruct (N v)|].
    now rewrite (loads_raises _ _ E).
Qed.
Print Assumptions C80_loads_raises_iff.
(** A text has one meaning. *)
Theorem C80_one_meaning : forall t v w, document v t -> document w t -> v = w.
Proof. intros t v w D E. apply loads_iff in D, E. congruence. Qed.
Print Assumptions C80_one_meaning.
Example C80_loads_case :
  loads "{""flag"" : [ [""-n"", ""--number""] , ""-s""], ""n"": -1.5e+3, ""flag"": null} " =
  Ok (JObj [(codes "flag", JArr [JArr [JStr (codes "-n"); JStr (codes "--number")]; JStr (codes "-s")]);
            (codes "n", JNum "-1.5e+3"); (codes "flag", JWord "null")]) /\
  loads """\uD83d\ude00""" = Ok (JStr [128512%N]) /\
  loads "[1,]" = Raise ValueError /\ loads "[1 2]" = Raise ValueError /\ loads "{'flag': []}" = Raise ValueError /\
  loads "[] []" = Raise ValueError /\ loads "[01]" = Raise ValueError /\ loads """a" = Raise ValueError /\ loads "" = Raise ValueError.
Proof. vm_compute. repeat split; reflexivity. Qed.
Example C80_document_case : document (JArr [JWord "true"; JNum "0"]) " [true ,0]".
Proof. apply C80_loads_iff. vm_compute. reflexivity. Qed.

(** What the parser is given: the data the file of the command holds, or the default file if there
    is no such file. *)
Theorem C80_read_iff : forall texts name d,
  (get_json_data (text_dir texts) name = Ok d <->
   exists fn t v, texts fn = Some t /\ document v t /\ holds v d /\
     (fn = name +++ ".json" \/ fn = "_default_data_for_commands.json" /\ texts (name +++ ".json") = None)).
Proof.
  intros texts name d.
  assert (R : forall fn, text_dir texts fn = FFound d <-> exists t v, texts fn = Some t /\ document v t /\ holds v d).
  { intros fn. unfold text_dir. destruct (texts fn) as [t|]; [|split; [discriminate|intros (t & v & E & _); discriminate]].
    destruct (loads t) as [v|e] eqn:L.
    - assert (D := proj1 (loads_iff _ _) L). destruct (as_data v) as [d'|] eqn:A.
      + split.
        * intros [= <-]. exists t, v. split; [reflexivity|]. split; [exact D|now apply as_data_iff].
        * intros (t' & v' & [= <-] & D' & H). apply loads_iff in D'. assert (v' = v) by congruence. subst v'.
          apply as_data_iff in H. congruence.
      + split; [discriminate|]. intros (t' & v' & [= <-] & D' & H). apply loads_iff in D'. assert (v' = v) by congruence. subst v'.
        apply as_data_iff in H. congruence.
    - split; [discriminate|]. intros (t' & v' & [= <-] & D' & H). apply loads_iff in D'. congruence. }
  assert (M : forall fn, text_dir texts fn = FNotFound <-> texts fn = None).
  { intros fn. unfold text_dir. destruct (texts fn) as [t|]; [|tauto].
    split; [|discriminate]. destruct (loads t) as [v|e]; [|discriminate]. destruct (as_data v); discriminate. }
  unfold get_json_data. split.
  - destruct (text_dir texts (name +++ ".json")) as [d'| |e] eqn:E1; [|destruct (text_dir texts "_default_data_for_commands.json") as [d'| |e] eqn:E2|];
      try discriminate; intros [= ->].
    + apply R in E1. destruct E1 as (t & v & E & D & H). eauto 9.
    + apply R in E2. destruct E2 as (t & v & E & D & H). apply M in E1. eauto 9.
  - intros (fn & t & v & E & D & H & W).
    assert (X : text_dir texts fn = FFound d) by (apply R; eauto).
    destruct W as [->|[-> N]]; [now rewrite X|]. apply M in N. now rewrite N, X.
Qed.
Print Assumptions C80_read_iff.
(** A file that is no JSON document raises, even if the default file is readable. *)
Theorem C80_damaged : forall texts name t, texts (name +++ ".json") = Some t -> (forall v, ~ document v t) ->
  get_json_data (text_dir texts) name = Raise ValueError.
Proof.
  intros texts name t E N. unfold get_json_data, text_dir. rewrite E.
  now rewrite (proj2 (C80_loads_raises_iff t) N).
Qed.
Print Assumptions C80_damaged.
(** A file that was cut anywhere before its last character that is no blank is one of these. *)
Theorem C80_cut_short : forall l p q, document (JObj l) (p +++ q) -> ~ blanks q -> forall v, ~ document v p.
Proof.
  intros l p q D B v E. destruct v as [w|n|s|vs|ms]; try (apply B; now apply (cut_short _ _ _ _ E) in D; try (intros [? [=]])).
  destruct E as (b1 & s & b2 & -> & B1 & V & B2). destruct D as (c1 & u & c2 & E & C1 & U & C2).
  apply (f_equal skip_space) in E. rewrite !app_assoc_s, (skip_blanks _ _ B1), (skip_blanks _ _ C1) in E.
  rewrite (solid_value _ _ _ V), (solid_value _ _ _ U) in E. inversion V as [|? N| | | | |]; subst.
  destruct (number_first _ N) as (c & d & -> & C). inversion U; subst; cbn in E; injection E as -> _;
    destruct C as [C|[C _]]; discriminate.
Qed.
Print Assumptions C80_cut_short.
Example C80_cut_case : exists l p q, document (JObj l) (p +++ q) /\ ~ blanks q /\ p <> "" /\
  loads (p +++ q) = Ok (JObj l) /\ loads p = Raise ValueError.
Proof.
  exists [(codes "flag", JArr [JArr [JStr (codes "-n")]]); (codes "option", JArr [])],
    "{""flag"": [[""-n""]], ""option"": []", "}".
  split; [apply C80_loads_iff; vm_compute; reflexivity|]. split; [|split; [discriminate|split; vm_compute; reflexivity]].
  intros [[H|[H|[H|H]]] _]; discriminate.
Qed.

(** The tables of ShippedData.v are what the shipped texts hold. *)
Theorem C80_shipped : forall fn, text_dir shipped_text fn = shipped_dir fn.
Proof.
  intros fn. unfold text_dir, shipped_text, shipped_dir.
  assert (F : Forall2 (fun a b => fst a = fst b /\ text_dir (fun _ => Some (snd a)) "" = FFound (snd b)) shipped_texts shipped_table).
  { unfold shipped_texts, shipped_table. repeat (constructor; [split; [reflexivity|vm_compute; reflexivity]|]). constructor. }
  induction F as [|[k t] [k' d] ts ds [K T] F IH]; [reflexivity|]. cbn in K. subst k'. cbn [dict_find].
  destruct (String.eqb fn k); [exact T|exact IH].
Qed.
Print Assumptions C80_shipped.
Theorem C80_shipped_read : forall name, get_json_data (text_dir shipped_text) name = get_json_data shipped_dir name.
Proof. intros name. unfold get_json_data. now rewrite !C80_shipped. Qed.
Print Assumptions C80_shipped_read.
(** Cutting any of them short makes it unreadable. *)
Theorem C80_shipped_cut : forall fn p q texts name, shipped_text fn = Some (p +++ q) -> ~ blanks q ->
  texts (name +++ ".json") = Some p -> get_json_data (text_dir texts) name = Raise ValueError.
Proof.
  intros fn p q texts name S B T. apply (C80_damaged texts name p T). 
  assert (O : exists l, document (JObj l) (p +++ q)).
  { assert (D := C80_shipped fn). unfold text_dir in D. rewrite S in D.
    destruct (loads (p +++ q)) as [v|e] eqn:L.
    - apply loads_iff in L. destruct v as [| | | |l]; [..|eauto]; cbn in D; unfold shipped_dir in D;
        destruct (dict_find shipped_table fn); discriminate.
    - unfold shipped_dir in D. destruct (dict_find shipped_table fn); discriminate. }
  destruct O as [l O]. exact (C80_cut_short l p q O B).
Qed.
Print Assumptions C80_shipped_cut.
Example C80_shipped_case : exists t v, shipped_text "uniq.json" = Some t /\ document v t /\ holds v data_uniq.
Proof.
  exists text_uniq. eexists. split; [reflexivity|]. split; [apply C80_loads_iff; vm_compute; reflexivity|].
  apply as_data_iff. vm_compute. reflexivity.
Qed.

(** [json.dumps] loses nothing: what it writes, with blanks around it, is read back as the value. *)
Theorem C80_dumps_loads : forall v b1 b2, writable v -> blanks b1 -> blanks b2 -> loads (b1 +++ dumps v +++ b2) = Ok v.
Proof. intros v b1 b2 W B1 B2. apply loads_iff. now apply dumps_document. Qed.
Print Assumptions C80_dumps_loads.
(** and is plain ASCII, whatever characters the value has. *)
Theorem C80_dumps_ascii : forall v, writable v -> all_chars plain_ascii (dumps v).
Proof. intros v W. now apply dumps_ascii. Qed.
Print Assumptions C80_dumps_ascii.
Example C80_dumps_case :
  let v := JObj [(codes "flag", JArr [JArr [JStr (codes "-""\")]; JStr [233; 128512]%N]); (codes "option", JArr [])] in
  writable v /\ dumps v = "{
    ""flag"": [
        [
            ""-\""\\""
        ],
        ""\u00e9\ud83d\ude00""
    ],
    ""option"": []
}".
Proof.
  cbv zeta. split; [|vm_compute; reflexivity].
  assert (P : python_text [233; 128512]%N).
  { split; [repeat constructor; lia|]. constructor; [|constructor; [intros; discriminate|constructor]].
    intros b l' _ [H _]. unfold is_high in H. lia. }
  constructor. constructor; [split; [apply latin_python|]|constructor; [split; [apply latin_python|]|constructor]].
  - constructor. constructor; [|constructor; [|constructor]].
    + constructor. constructor; [constructor; apply latin_python|constructor].
    + constructor. exact P.
  - constructor. constructor.
Qed.

(** The file manpage-to-json.sh prints for a man page gives the parser exactly the flags and options
    announced by the lines that start with seven blanks and a dash (C54 says what a line announces). *)
Theorem C80_scraper : forall page lines texts name j, Forall (all_chars (fun c => c <> "010"%char)) page -> kept page lines ->
  texts (name +++ ".json") = Some (manpage_to_json page) ->
  (get_json_data (text_dir texts) name = Ok j <-> exists gs, scanned [] lines gs /\ scraped gs j).
Proof.
  intros page lines texts name j F K T. assert (TL := kept_lines _ _ F K).
  rewrite <- (C54_exact lines j TL). rewrite (kept_fun _ _ K).
  unfold get_json_data, text_dir. rewrite T. unfold manpage_to_json. rewrite args_to_json_loads.
  rewrite (proj2 (as_data_iff _ _) (data_value_holds _)). split; congruence.
Qed.
Print Assumptions C80_scraper.
Example C80_scraper_case :
  let page := ["NAME"; "       -n, --number"; "              number all output lines"; "       -s NUM"; "  -x"] in
  kept page ["-n, --number" +++ one_char "010"; "-s NUM" +++ one_char "010"] /\
  manpage_to_json page = "{
    ""flag"": [
        [
            ""-n"",
            ""--number""
        ]
    ],
    ""option"": [
        [
            ""-s"",
            ""NUM""
        ]
    ]
}
" /\ get_json_data (text_dir (fun fn => if String.eqb fn "nl.json" then Some (manpage_to_json page) else None)) "nl" =
  Ok (mkJson [FEList ["-n"; "--number"]] [mkOE ["-s"] (OAStr "NUM")]).
Proof.
  cbv zeta. split; [|split; vm_compute; reflexivity].
  apply kp_drop; [discriminate|]. apply (kp_keep "n, --number"). apply kp_drop; [discriminate|].
  apply (kp_keep "s NUM"). apply kp_drop; [discriminate|]. constructor.
Qed.
