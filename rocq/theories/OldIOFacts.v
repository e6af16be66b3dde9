(** * Facts about the streams of the earlier records *)
From Coq Require Import NArith Permutation.
Require Import Verif.PyBase Verif.JsonData Verif.ParserFacts Verif.Parser Verif.Access Verif.IOInfo Verif.IOGen Verif.SpecIO Verif.SpecPara Verif.ParaFacts
  Verif.IOShipped Verif.ShippedFacts Verif.Json Verif.SpecJson Verif.JsonFacts Verif.JsonFacts2 Verif.OldText Verif.ShippedData Verif.SpecParser
  Verif.SpecOld Verif.OldFacts Verif.SpecOldIO Verif.P_IO.

(** ** The records *)
Definition read_io (x : string * string) : option (string * string * bool * list io_case) :=
  match Json.loads (snd x) with
  | Ok v => option_map (fun r => (fst x, fst (fst r), snd (fst r), snd r)) (io_record_of v)
  | Raise _ => None
  end.
Definition io_table : list (string * string * bool * list io_case) :=
  Eval vm_compute in flat_map (fun x => match read_io x with Some r => [r] | None => [] end) old_texts.
Lemma io_table_reads : map read_io old_texts = map Some io_table.
Proof. vm_compute. reflexivity. Qed.
Definition io_of (name : string) : option (bool * list io_case) :=
  option_map (fun x => (snd (fst x), snd x)) (find (fun x => String.eqb (snd (fst (fst x))) name) io_table).
Lemma io_of_table : Forall (fun x => io_of (snd (fst (fst x))) = Some (snd (fst x), snd x)) io_table.
Proof. unfold io_table at 1. repeat (constructor; [vm_compute; reflexivity|]). constructor. Qed.
Lemma record_iff name h cs :
  (exists fn t v, In (fn, t) old_texts /\ document v t /\ io_record_of v = Some (name, h, cs)) <-> io_of name = Some (h, cs).
Proof.
  split.
  - intros (fn & t & v & I & D & R). apply loads_iff in D.
    assert (J : In (read_io (fn, t)) (map read_io old_texts)) by now apply in_map.
    rewrite io_table_reads in J. apply in_map_iff in J. destruct J as (r & E & J).
    unfold read_io in E. cbn [fst snd] in E. rewrite D, R in E. cbn in E. injection E as ->.
    exact (proj1 (Forall_forall _ _) io_of_table _ J).
  - unfold io_of. destruct (find _ io_table) as [[[[fn n] h'] cs']|] eqn:F; [|discriminate]. cbn. intros [= -> ->].
    apply find_some in F. destruct F as (I & E). cbn in E. apply String.eqb_eq in E. subst n.
    assert (J : In (Some (fn, name, h, cs)) (map read_io old_texts)) by (rewrite io_table_reads; now apply in_map).
    apply in_map_iff in J. destruct J as ([fn' t] & E & J). unfold read_io in E. cbn [fst snd] in E.
    destruct (Json.loads t) as [v|] eqn:L; [|discriminate]. destruct (io_record_of v) as [[[n' h''] c]|] eqn:R; [|discriminate].
    cbn in E. injection E as -> -> -> ->. exists fn, t, v. repeat split; auto. now apply loads_iff.
Qed.

(** The streams of the first case whose predicate holds *)
Fixpoint streams_in (get : io_case -> option (list place)) (d : std) (inv : invocation) (h : bool) (cs : list io_case) (l : list file_or_std) : Prop :=
  match cs with
  | [] => False
  | c :: cs' =>
      (met inv (ic_when c) /\
       match get c with Some ps => l = flat_map (streams_at (h || ic_hyphen c) d (operand_list inv)) ps | None => False end) \/
      (~ met inv (ic_when c) /\ streams_in get d inv h cs' l)
  end.
Lemma streams_in_iff get d inv h cs l :
  streams_in get d inv h cs l <->
  exists c ps, first_case inv cs c /\ get c = Some ps /\ l = flat_map (streams_at (h || ic_hyphen c) d (operand_list inv)) ps.
Proof.
  induction cs as [|c cs IH]; cbn [streams_in].
  - split; [tauto|]. intros (c & ps & F & _). inversion F.
  - rewrite IH. split.
    + intros [(M & G)|(M & c' & ps & F & G & E)].
      * destruct (get c) as [ps|] eqn:Q; [|destruct G]. exists c, ps. split; [now apply fc_here|auto].
      * exists c', ps. split; [now apply fc_later|auto].
    + intros (c' & ps & F & G & E). inversion F; subst.
      * left. split; [assumption|]. now rewrite G.
      * right. split; [assumption|]. exists c', ps. auto.
Qed.
Lemma old_inputs_iff inv l : old_inputs inv l <-> exists h cs, io_of (cmd_name inv) = Some (h, cs) /\ streams_in ic_in STDIN inv h cs l.
Proof.
  unfold old_inputs. split.
  - intros (fn & t & v & h & cs & c & ps & I & D & R & F & G & E). exists h, cs. split.
    + apply record_iff. eauto 8.
    + apply streams_in_iff. eauto.
  - intros (h & cs & R & S). apply record_iff in R. destruct R as (fn & t & v & I & D & R). apply streams_in_iff in S. destruct S as (c & ps & F & G & E).
    exists fn, t, v, h, cs, c, ps. auto 10.
Qed.
Lemma old_outputs_iff inv l : old_outputs inv l <-> exists h cs, io_of (cmd_name inv) = Some (h, cs) /\ streams_in ic_out STDOUT inv h cs l.
Proof.
  unfold old_outputs. split.
  - intros (fn & t & v & h & cs & c & ps & I & D & R & F & G & E). exists h, cs. split.
    + apply record_iff. eauto 8.
    + apply streams_in_iff. eauto.
  - intros (h & cs & R & S). apply record_iff in R. destruct R as (fn & t & v & I & D & R). apply streams_in_iff in S. destruct S as (c & ps & F & G & E).
    exists fn, t, v, h, cs, c, ps. auto 10.
Qed.

(** ** Streams of options *)
Definition el_of (d : std) (s : string) : file_or_std := if String.eqb s "-" then StdDescriptor d else FileName s.
Definition std_of (k : access) : std := match k with STREAM_OUTPUT | OTHER_OUTPUT => STDOUT | _ => STDIN end.
Lemma denotes_el a s el : denotes a s el -> el = el_of (std_of a) s.
Proof.
  unfold el_of. intros [a' [-> |[-> |[-> |[-> | ->]]]]|a' [-> | ->]|a' s' N]; try reflexivity. now rewrite (proj2 (String.eqb_neq s' "-") N).
Qed.
Lemma eqb_access a b : access_eqb a b = true <-> a = b.
Proof. destruct a, b; cbn; split; (reflexivity || discriminate). Qed.
Definition arg_at (names : list string) (d : std) (fo : flag_option) : list file_or_std :=
  match fo with Option_ n s => if mem n names then [el_of d s] else [] | Flag _ => [] end.
Lemma option_streams k j names fl fos :
  (forall n d, declared_as j n d -> (d = Some k <-> In n names)) -> Forall2 (fo_classified j) fl fos ->
  flat_map (fun fo => match fo with OptionIO _ x => stream_of k x | FlagIO _ => [] end) fos = flat_map (arg_at names (std_of k)) fl.
Proof.
  intros N. induction 1 as [|fo fx fl fos H G IH]; [reflexivity|]. cbn [flat_map]. rewrite IH. f_equal.
  destruct H as [n|n s d x D O]; [reflexivity|]. specialize (N n d D). cbn [arg_at]. destruct O as [s|a s el E].
  - cbn. destruct (mem n names) eqn:M; [|reflexivity]. apply mem_In in M. apply N in M. discriminate.
  - cbn [stream_of res_access res_el]. apply denotes_el in E. subst el. destruct (access_eqb a k) eqn:A.
    + apply eqb_access in A. subst a. assert (M : In n names) by now apply N. apply mem_In in M. now rewrite M.
    + destruct (mem n names) eqn:M; [|reflexivity]. apply mem_In in M. apply N in M. injection M as ->.
      now rewrite (proj2 (eqb_access k k) eq_refl) in A.
Qed.
(** Which options of the shipped data are streams *)
Definition stream_names (k : access) (name : string) : list string :=
  match k, name with
  | STREAM_INPUT, "diff" => ["--from-file"; "--to-file"]
  | STREAM_OUTPUT, "sort" => ["-o"]
  | _, _ => []
  end%string.
Definition is_stream_entry (k : access) (e : option_entry) : bool :=
  match oe_arg e with
  | OAList (ty :: ac :: _) =>
      mem ty ["FILE"; "DIR"; "DIRECTORY"] && String.eqb ac (match k with STREAM_INPUT => "STREAM_INPUT" | _ => "STREAM_OUTPUT" end)
  | _ => false
  end.
Definition filed (e : option_entry) : string :=
  match oe_names e with m :: _ => m | [] => match oe_arg e with OAStr n => n | OAList _ => "" end end.
Lemma filed_filed e n : filed_under e n -> filed e = n.
Proof. unfold filed_under, filed. destruct (oe_names e); [now intros ->|auto]. Qed.
Lemma declares_stream k e d : k = STREAM_INPUT \/ k = STREAM_OUTPUT -> declares e d -> (d = Some k <-> is_stream_entry k e = true).
Proof.
  intros K [ty ac rest a E F A|ty ac rest a E F A|ty E F]; unfold is_stream_entry; rewrite E.
  - assert (M : mem ty ["FILE"; "DIR"; "DIRECTORY"] = true) by (apply mem_In; cbn; destruct F as [-> |[-> | ->]]; auto). rewrite M. cbn [andb].
    destruct K as [-> | ->]; repeat (destruct A as [(-> & ->)|A]); try (destruct A as (-> & ->)); cbn; split; (reflexivity || discriminate).
  - assert (M : mem ty ["FILE"; "DIR"; "DIRECTORY"] = false).
    { destruct (mem ty _) eqn:M; [|reflexivity]. apply mem_In in M. destruct F. cbn in M. unfold file_type. intuition. }
    rewrite M. split; discriminate.
  - split; discriminate.
Qed.
Definition json_of (name : string) : string := name +++ ".json".
Definition checked_commands : list string := io_commands.
Lemma shipped_streams_checked :
  forallb (fun k => forallb (fun name =>
    match shipped_dir (json_of name) with
    | FFound j => forallb (fun e => Bool.eqb (is_stream_entry k e) (mem (filed e) (stream_names k name))) (j_option j)
    | FNotFound => match shipped_dir default_file with
                   | FFound j => forallb (fun e => Bool.eqb (is_stream_entry k e) (mem (filed e) (stream_names k name))) (j_option j)
                   | _ => false
                   end
    | FError _ => false
    end) checked_commands) [STREAM_INPUT; STREAM_OUTPUT] = true.
Proof. vm_compute. reflexivity. Qed.
Lemma shipped_streams k name j : k = STREAM_INPUT \/ k = STREAM_OUTPUT -> In name io_commands -> SpecParser.loads shipped_dir name j ->
  forall n d, declared_as j n d -> (d = Some k <-> In n (stream_names k name)).
Proof.
  intros K I L n d (pre & e & post & E & F & D & _). rewrite (declares_stream k e d K D). rewrite <- mem_In. apply filed_filed in F. subst n.
  pose proof shipped_streams_checked as C. rewrite forallb_forall in C. specialize (C k). cbn [In] in C.
  assert (K' : STREAM_INPUT = k \/ STREAM_OUTPUT = k \/ False) by (destruct K; auto). specialize (C K'). rewrite forallb_forall in C. specialize (C name I).
  assert (Q : forallb (fun e => Bool.eqb (is_stream_entry k e) (mem (filed e) (stream_names k name))) (j_option j) = true).
  { unfold json_of in C. destruct L as [L|[L M]]; rewrite L in C; [exact C|]. now rewrite M in C. }
  rewrite forallb_forall in Q. assert (J : In e (j_option j)) by (rewrite E; apply in_or_app; right; now left).
  specialize (Q e J). apply Bool.eqb_prop in Q. rewrite Q. reflexivity.
Qed.
Lemma options_streams k inv fos : k = STREAM_INPUT \/ k = STREAM_OUTPUT -> In (cmd_name inv) io_commands -> options_classified shipped_dir inv fos ->
  flat_map (fun fo => match fo with OptionIO _ x => stream_of k x | FlagIO _ => [] end) fos =
  flat_map (arg_at (stream_names k (cmd_name inv)) (std_of k)) (flag_option_list inv).
Proof.
  intros K I (j & L & _ & F). apply (option_streams k j); [|exact F]. now apply shipped_streams.
Qed.
Lemma no_names d fl : flat_map (arg_at [] d) fl = [].
Proof. induction fl as [|[|] fl IH]; auto. Qed.

(** ** Streams of operands *)
Lemma files_streams k l : k = STREAM_INPUT -> flat_map (stream_of k) (map (in_file k) l) = map (el_of STDIN) l.
Proof. intros ->. induction l as [|x l IH]; [reflexivity|]. cbn [map flat_map]. rewrite IH. reflexivity. Qed.
Lemma strings_streams k l : flat_map (stream_of k) (map ArgString l) = [].
Proof. induction l as [|x l IH]; auto. Qed.
Lemma other_in_streams k a l : access_eqb a k = false -> flat_map (stream_of k) (map (in_file a) l) = [].
Proof. intros N. induction l as [|x l IH]; [reflexivity|]. cbn [map flat_map stream_of in_file res_access]. now rewrite N, IH. Qed.
Lemma other_out_streams k a l : access_eqb a k = false -> flat_map (stream_of k) (map (out_file a) l) = [].
Proof. intros N. induction l as [|x l IH]; [reflexivity|]. cbn [map flat_map stream_of out_file res_access]. now rewrite N, IH. Qed.
Lemma out_streams l : flat_map (stream_of STREAM_OUTPUT) (map (out_file STREAM_OUTPUT) l) = map (el_of STDOUT) l.
Proof. induction l as [|x l IH]; [reflexivity|]. cbn [map flat_map]. rewrite IH. reflexivity. Qed.

Lemma one_std d l : map (el_of d) l = [StdDescriptor d] <-> l = ["-"].
Proof.
  split; [|now intros ->]. destruct l as [|x [|y l]]; try discriminate. cbn. unfold el_of. destruct (String.eqb_spec x "-") as [-> |N]; [reflexivity|discriminate].
Qed.
Lemma no_hyphen d l : map FileName l = map (el_of d) l <-> ~ In "-" l.
Proof.
  induction l as [|x l IH]; cbn [map In]; [tauto|]. unfold el_of at 1. destruct (String.eqb_spec x "-") as [-> |N]; split.
  - discriminate.
  - tauto.
  - intros [= E]. apply IH in E. intuition.
  - intros H. f_equal. apply IH. tauto.
Qed.
Lemma hyphen_on d l : map (fun s => if String.eqb s "-" then StdDescriptor d else FileName s) l = map (el_of d) l.
Proof. reflexivity. Qed.
Lemma hyphen_off d l : map (fun s => if false && String.eqb s "-" then StdDescriptor d else FileName s) l = map FileName l.
Proof. reflexivity. Qed.
