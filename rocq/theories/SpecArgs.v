(** * Specification of the man page scraper: which forms a line announces *)
Require Import Verif.PyBase Verif.JsonData Verif.SpecShlex Verif.ArgsToJson.

Definition code_in (l : list nat) (c : ascii) : Prop := In (nat_of_ascii c) l.
(** tab, newline, vertical tab, form feed, carriage return, the four separators, blank, next line, no-break space *)
Definition white : ascii -> Prop := code_in [9; 10; 11; 12; 13; 28; 29; 30; 31; 32; 133; 160].
Definition lower (c : ascii) : Prop := 97 <= nat_of_ascii c <= 122.
Definition upper (c : ascii) : Prop := 65 <= nat_of_ascii c <= 90.
Definition dash : ascii := "-"%char.

(** A line of text: a newline can only be its last character. *)
Definition text_line (l : string) : Prop :=
  exists body, all_chars (fun c => c <> "010"%char) body /\ (l = body \/ l = body +++ one_char "010").

(** [without P s t]: [t] is [s] without the characters in [P]. *)
Inductive without (P : ascii -> Prop) : string -> string -> Prop :=
| wo_nil : without P "" ""
| wo_drop c s t : P c -> without P s t -> without P (String c s) t
| wo_keep c s t : ~ P c -> without P s t -> without P (String c s) (String c t).

(** [phrases s ps]: [s] is [ps] separated by a comma and a blank, none of which contains them. *)
Definition no_separator (p : string) : Prop := forall a b, p <> a +++ ", " +++ b.
Inductive phrases : string -> list string -> Prop :=
| ph_one p : no_separator p -> phrases p [p]
| ph_more p s ps : no_separator p -> phrases s ps -> phrases (p +++ ", " +++ s) (p :: ps).

(** [trimmed p t]: [t] is [p] without white space at both ends. *)
Definition trimmed (p t : string) : Prop :=
  exists b1 b2, all_chars white b1 /\ all_chars white b2 /\ p = b1 +++ t +++ b2 /\
    (forall c s, t = String c s -> ~ white c) /\ (forall c s, t = s +++ one_char c -> ~ white c).

(** [first_part sep s x]: [x] is [s] up to the first separator. *)
Definition first_part (sep : ascii -> Prop) (s x : string) : Prop :=
  all_chars (fun c => ~ sep c) x /\ (s = x \/ exists c rest, sep c /\ s = x +++ String c rest).

(** [parts t n second]: the name and what follows it, after an equal sign or else after white space. *)
Inductive parts : string -> string -> option string -> Prop :=
| pt_equal n rest a : all_chars (fun c => c <> "="%char) n -> first_part (eq "="%char) rest a ->
    parts (n +++ String "=" rest) n (Some a)
| pt_space n c b d rest a : all_chars (fun c => c <> "="%char) (n +++ String c b +++ String d rest) ->
    all_chars (fun c => ~ white c) n -> white c -> all_chars white b -> ~ white d -> first_part white (String d rest) a ->
    parts (n +++ String c b +++ String d rest) n (Some a)
| pt_alone n : all_chars (fun c => c <> "="%char) n -> all_chars (fun c => ~ white c) n -> parts n n None.

(** The spellings looked for: dashes and either one capital letter or small letters and dashes. *)
Definition spelling (n : string) : Prop :=
  exists ds w, n = String dash ds +++ w /\ all_chars (eq dash) ds /\
    ((exists c, w = one_char c /\ upper c) \/
     (exists c w', w = String c w' /\ lower c /\ all_chars (fun d => lower d \/ d = dash) w')).
(** The name of an argument: capital letters. *)
Definition argument (a : string) : Prop := a <> "" /\ all_chars upper a.

(** [announces p x]: the phrase [p] announces the flag or option [x]. *)
Inductive announces (p : string) : xbd_arg -> Prop :=
| an_flag t n second : trimmed p t -> parts t n second -> spelling n ->
    (forall a, second = Some a -> ~ argument a) -> announces p (XFlag n)
| an_option t n a : trimmed p t -> parts t n (Some a) -> spelling n -> argument a -> announces p (XOption n a).

(** [announced l xs]: what the line [l], without brackets, announces from left to right. *)
Inductive reads : list string -> list xbd_arg -> Prop :=
| rd_nil : reads [] []
| rd_skip p ps xs : (forall x, ~ announces p x) -> reads ps xs -> reads (p :: ps) xs
| rd_take p ps x xs : announces p x -> reads ps xs -> reads (p :: ps) (x :: xs).
Definition announced (l : string) (xs : list xbd_arg) : Prop :=
  exists s ps, without (fun c => c = "["%char \/ c = "]"%char) l s /\ phrases s ps /\ reads ps xs.

(** [fresh past xs ys past']: [ys] are those of [xs] whose name, without dashes, has not been seen yet. *)
Inductive fresh : list string -> list xbd_arg -> list xbd_arg -> list string -> Prop :=
| fr_nil past : fresh past [] [] past
| fr_old past x b xs ys past' : without (eq dash) (xname x) b -> In b past -> fresh past xs ys past' ->
    fresh past (x :: xs) ys past'
| fr_new past x b xs ys past' : without (eq dash) (xname x) b -> ~ In b past -> fresh (b :: past) xs ys past' ->
    fresh past (x :: xs) (x :: ys) past'.
(** [scanned past ls gs]: the new announcements of each line that has any. *)
Inductive scanned : list string -> list string -> list (list xbd_arg) -> Prop :=
| sc_nil past : scanned past [] []
| sc_nothing past l ls xs past' gs : announced l xs -> fresh past xs [] past' -> scanned past' ls gs ->
    scanned past (l :: ls) gs
| sc_some past l ls xs y ys past' gs : announced l xs -> fresh past xs (y :: ys) past' -> scanned past' ls gs ->
    scanned past (l :: ls) ((y :: ys) :: gs).

(** A line that announces flags and options together. *)
Definition mixed (g : list xbd_arg) : Prop := (exists n, In (XFlag n) g) /\ (exists n a, In (XOption n a) g).
(** The entries made from the announcements of one line. *)
Inductive entries : list xbd_arg -> list flag_entry -> list option_entry -> Prop :=
| en_flags ns : entries (map XFlag ns) [FEList ns] []
| en_options g n a : In (XOption n a) g ->
    entries g (flat_map (fun x => match x with XFlag n => [FEStr n] | XOption _ _ => [] end) g)
              (flat_map (fun x => match x with XFlag _ => [] | XOption n a => [mkOE [n] (OAStr a)] end) g).
Inductive scraped : list (list xbd_arg) -> json_data -> Prop :=
| scr_nil : scraped [] (mkJson [] [])
| scr_line g gs f o fs os : entries g f o -> scraped gs (mkJson fs os) -> scraped (g :: gs) (mkJson (f ++ fs) (o ++ os)).

(** The names written to the file. *)
Definition written (j : json_data) : list string :=
  flat_map (fun e => match e with FEList l => l | FEStr s => [s] end) (j_flag j) ++ flat_map oe_names (j_option j).
