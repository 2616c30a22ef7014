(* Inline.v -- /repo/src/parser/state_machine/inline.rs and the inline loop of
   /repo/src/parser/mod.rs. *)
From Verif Require Import Base Common NodeTypes Tree DocTree Regex Patterns Utf8Latex Prog.

(* inline.rs:1012-1110 OPENERS, CLOSERS, DELIMITERS (transcribed by a script) *)
Definition OPENERS : list char :=
  [34; 39; 40; 60; 92; 91; 123; 3898; 3900; 5787; 8261; 8317; 8333; 9001; 10088; 10090;
   10092; 10094; 10096; 10098; 10100; 10181; 10214; 10216; 10218; 10220; 10222; 10627; 10629;
   10631; 10633; 10635; 10637; 10639; 10641; 10643; 10645; 10647; 10712; 10714; 10748; 11810;
   11812; 11814; 11816; 12296; 12298; 12300; 12302; 12304; 12308; 12310; 12312; 12314; 12317;
   12317; 64830; 65047; 65077; 65079; 65081; 65083; 65085; 65087; 65089; 65091; 65095; 65113;
   65115; 65117; 65288; 65339; 65371; 65375; 65378; 171; 8216; 8220; 8249; 11778; 11780;
   11785; 11788; 11804; 11808; 8218; 8222; 187; 8217; 8221; 8250; 11779; 11781; 11786; 11789;
   11805; 11809; 8219; 8223; 187; 8216; 8217; 8218; 8218; 8220; 8222; 8222; 8221; 8250]%N.
Definition CLOSERS : list char :=
  [34; 39; 41; 62; 92; 93; 125; 3899; 3901; 5788; 8262; 8318; 8334; 9002; 10089; 10091;
   10093; 10095; 10097; 10099; 10101; 10182; 10215; 10217; 10219; 10221; 10223; 10628; 10630;
   10632; 10634; 10636; 10638; 10640; 10642; 10644; 10646; 10648; 10713; 10715; 10749; 11811;
   11813; 11815; 11817; 12297; 12299; 12301; 12303; 12305; 12309; 12311; 12313; 12315; 12318;
   12319; 64831; 65048; 65078; 65080; 65082; 65084; 65086; 65088; 65090; 65092; 65096; 65114;
   65116; 65118; 65289; 65341; 65373; 65376; 65379; 187; 8217; 8221; 8250; 11779; 11781;
   11786; 11789; 11805; 11809; 8219; 8223; 171; 8216; 8220; 8249; 11778; 11780; 11785; 11788;
   11804; 11808; 8218; 8222; 187; 8218; 8217; 8216; 8217; 8222; 8220; 8221; 8221; 8250]%N.
Definition DELIMITERS : list char :=
  [34; 92; 45; 47; 58; 125; 1418; 161; 183; 191; 894; 903; 1370; 45; 1375; 1417; 1470; 1472;
   1475; 1478; 1523; 1524; 1545; 1546; 1548; 1549; 1563; 1566; 1567; 1642; 45; 1645; 1748;
   1792; 45; 1805; 2039; 45; 2041; 2096; 45; 2110; 2404; 2405; 2416; 3572; 3663; 3674; 3675;
   3844; 45; 3858; 3973; 4048; 45; 4052; 4170; 45; 4175; 4347; 4961; 45; 4968; 5120; 5741;
   5742; 5867; 45; 5869; 5941; 5942; 6100; 45; 6102; 6104; 45; 6106; 6144; 45; 6154; 6468;
   6469; 6622; 6623; 6686; 6687; 6816; 45; 6822; 6824; 45; 6829; 7002; 45; 7008; 7227; 45;
   7231; 7294; 7295; 7379; 8208; 45; 8215; 8224; 45; 8231; 8240; 45; 8248; 8251; 45; 8254;
   8257; 45; 8259; 8263; 45; 8273; 8275; 8277; 45; 8286; 11513; 45; 11516; 11518; 11519;
   11776; 11777; 11782; 45; 11784; 11787; 11790; 45; 11803; 11806; 11807; 11818; 45; 11822;
   11824; 11825; 12289; 45; 12291; 12316; 12336; 12349; 12448; 12539; 42238; 42239; 42509;
   45; 42511; 42611; 42622; 42738; 45; 42743; 43124; 45; 43127; 43214; 43215; 43256; 45;
   43258; 43310; 43311; 43359; 43457; 45; 43469; 43486; 43487; 43612; 45; 43615; 43742;
   43743; 44011; 65040; 45; 65046; 65049; 65072; 45; 65074; 65093; 65094; 65097; 45; 65100;
   65104; 45; 65106; 65108; 45; 65112; 65119; 45; 65121; 65123; 65128; 65130; 65131; 65281;
   45; 65283; 65285; 45; 65287; 65290; 65292; 45; 65295; 65306; 65307; 65311; 65312; 65340;
   65377; 65380; 65381]%N.

(* inline.rs:992-1007 quotation_matches *)
Definition ends_with_char (s : str) (c : char) : bool :=
  match rev s with x :: _ => N.eqb x c | [] => false end.
Definition starts_with_char (s : str) (c : char) : bool :=
  match s with x :: _ => N.eqb x c | [] => false end.
Definition quotation_matches (start fin : str) : bool :=
  existsb (fun oc => ends_with_char start (fst oc) && starts_with_char fin (snd oc)) (combine OPENERS CLOSERS)
  || existsb (fun c => ends_with_char start c && starts_with_char fin c) DELIMITERS.

(* Nodes made from a match, and the number of characters it takes up.  The
   boolean says whether the caller handed over its document. *)
Definition inline_fun := bool -> caps -> prog (list TreeNodeType * nat).

(* captures.name(..) with "" for a group that took no part *)
Definition opt_cap (n : nat) (cs : caps) : str := match cap n cs with Some t => t | None => [] end.
(* captures.name(..).unwrap() *)
Definition get_cap (n : nat) (cs : caps) : prog str := lift (unwrap (cap n cs)).
Definition to_latex := unicode_text_to_latex.
Definition nonempty (s : str) : bool := match s with [] => false | _ => true end.

(* inline.rs:40-119 paired_delimiter; mk is the node of the pattern *)
Definition paired_delimiter (mk : str -> TreeNodeType) : inline_fun := fun _ cs =>
  let lb := opt_cap 1 cs in
  let* start := get_cap 2 cs in
  let* content := get_cap 3 cs in
  let* fin := get_cap 4 cs in
  if quotation_matches lb content then
    let n := length lb + length start + length content + length fin in
    PRet ([NText (to_latex (firstn n (whole cs)))], n)
  else
    PRet ((if nonempty lb then [NText (to_latex lb)] else []) ++ [mk (to_latex content)],
          (if nonempty lb then length lb else 0) + (length start + length content + length fin)).

(* inline.rs:123-173 inline_target: the label goes to the document's stack of
   internal targets *)
Definition inline_target : inline_fun := fun doc cs =>
  let lb := opt_cap 1 cs in
  let* start := get_cap 2 cs in
  let* content := get_cap 3 cs in
  let* fin := get_cap 4 cs in
  let* _ := (if doc then let* _ := doc_op (DLabel (normalize_refname content)) in PRet tt else PRet tt) in
  PRet ((if nonempty lb then [NText (to_latex lb)] else []),
        (if nonempty lb then length lb else 0) + (length start + length content + length fin)).

(* inline.rs:176-189 whitespace *)
Definition inline_whitespace : inline_fun := fun _ cs =>
  PRet ([NWhiteSpace (whole cs)], length (whole cs)).

(* inline.rs:330-447: the node for a role *)
Definition is_role (role : str) (names : list string) : bool :=
  existsb (fun n => str_eqb role (lit n)) names.
Definition role_node (role content : str) : outcome TreeNodeType :=
  if is_role role ["emphasis"]%string then Ret (NEmphasis content)
  else if is_role role ["literal"; "code"]%string then Ret (NLiteral content)
  else if is_role role ["math"]%string then Ret (NMath (unicode_math_to_latex content) None None)
  else if is_role role ["pep-reference"; "PEP"]%string then
    let! k := checked_sub 4 (length content) in
    Ret (NReference (Some (lit "PEP " ++ content))
           (RURI (lit "https://www.python.org/peps/pep-" ++ zeros k ++ content ++ lit ".html")))
  else if is_role role ["rfc-reference"; "RFC"]%string then
    Ret (NReference (Some (lit "RFC " ++ content))
           (RURI (lit "https://www.faqs.org/rfcs/rfc" ++ content ++ lit ".html")))
  else if is_role role ["strong"]%string then Ret (NStrongEmphasis content)
  else if is_role role ["subscript"]%string then Ret (NSubscript content)
  else if is_role role ["superscript"]%string then Ret (NSuperscript content)
  else if is_role role ["title-reference"]%string then Ret (NTitleReference content (normalize_refname content))
  else Ret (NInterpretedText role content).

(* inline.rs:191-448 interpreted_text *)
Definition interpreted_text : inline_fun := fun _ cs =>
  let lb := opt_cap 1 cs in
  let frm := opt_cap 2 cs in
  let front_role := opt_cap 3 cs in
  let* start := get_cap 4 cs in
  let* content := get_cap 5 cs in
  let* fin := get_cap 6 cs in
  let brm := opt_cap 7 cs in
  let back_role := opt_cap 8 cs in
  let match_len := length lb + length frm + length start + length content + length fin + length brm in
  if nonempty frm && nonempty brm then PRet ([NLiteral (firstn match_len (whole cs))], match_len)
  else if nonempty frm && quotation_matches lb front_role then
    let n := 2 * length lb + 1 in PRet ([NText (firstn n (whole cs))], n)
  else if negb (nonempty frm) && quotation_matches lb content then
    let n := length lb + length start in PRet ([NText (firstn n (whole cs))], n)
  else if nonempty lb then PRet ([NText (to_latex lb)], length lb)
  else if nonempty front_role then
    let* x := lift (role_node front_role content) in PRet ([x], match_len)
  else if nonempty back_role then
    let* x := lift (role_node back_role content) in PRet ([x], match_len)
  else PRet ([NTitleReference content (normalize_refname content)], match_len).

(* inline.rs:470-486, 553-566, 786-801: the label of an automatic or manual reference *)
Definition ref_label (doc : bool) (ref_type content : str) : prog str :=
  if str_eqb ref_type (lit "__") then
    if doc then label_of DAnonRef else PRet (normalize_refname content)
  else if str_eqb ref_type (lit "_") then PRet (normalize_refname content)
  else PPanic.

(* inline.rs:451-505 simple_ref *)
Definition simple_ref : inline_fun := fun doc cs =>
  let lb := opt_cap 1 cs in
  let* content := get_cap 2 cs in
  let* ref_type := get_cap 3 cs in
  if nonempty lb then PRet ([NText (to_latex lb)], length lb)
  else
    let* label := ref_label doc ref_type content in
    PRet ([NReference None (RInternal label)], length lb + length content + length ref_type).

(* inline.rs:508-600 phrase_ref.  The pattern's group for the container of the
   embedded URI has another name than the one asked for; it is not used. *)
Definition phrase_ref : inline_fun := fun doc cs =>
  let lb := opt_cap 1 cs in
  let* start := get_cap 2 cs in
  let* content := get_cap 3 cs in
  let embedded := opt_cap 5 cs in
  let* ref_type := get_cap 7 cs in
  let* fin := get_cap 6 cs in
  if quotation_matches lb content then
    let n := length lb + length start + length content in
    PRet ([NText (firstn n (whole cs))], n)
  else if nonempty lb then PRet ([NText (to_latex lb)], length lb)
  else
    let* reference :=
      (if str_eqb ref_type (lit "__") then
         let* l := (if doc then label_of DAnonRef else PRet (normalize_refname content)) in PRet (RInternal l)
       else if str_eqb ref_type (lit "_") then
         PRet (if nonempty embedded then RURI (normalize_refname embedded)
               else RInternal (normalize_refname content))
       else PPanic) in
    PRet ([NReference (Some content) reference],
          if nonempty embedded then length (whole cs)
          else length lb + length start + length content + length fin + length ref_type).

(* inline.rs:603-693 footnote_ref *)
Definition footnote_ref : inline_fun := fun _ cs =>
  let lb := opt_cap 1 cs in
  let* content := get_cap 3 cs in
  let* start := get_cap 2 cs in
  let number := opt_cap 4 cs in
  let auto_number := opt_cap 5 cs in
  let auto_number_label := opt_cap 6 cs in
  let symbol := opt_cap 8 cs in
  let* ref_type := get_cap 10 cs in
  let* fin := get_cap 9 cs in
  let* node :=
    (if nonempty number then PRet (NFootnoteReference number number FManual)
     else if nonempty auto_number then PRet (NFootnoteReference auto_number auto_number FAutoNumbered)
     else if nonempty auto_number_label then
       PRet (NFootnoteReference auto_number_label auto_number_label FSimpleRefName)
     else if nonempty symbol then PRet (NFootnoteReference symbol symbol FAutoSymbol)
     else PPanic) in
  PRet ((if nonempty lb then [NText (to_latex lb)] else []) ++ [node],
        (if nonempty lb then length lb else 0) + length start
        + (length content + length fin + length ref_type)).

(* inline.rs:696-752 citation_ref *)
Definition citation_ref : inline_fun := fun _ cs =>
  let lb := opt_cap 1 cs in
  let* start := get_cap 2 cs in
  let* content := get_cap 3 cs in
  let* fin := get_cap 4 cs in
  if nonempty lb && quotation_matches lb content then
    let n := length lb + length start + 1 in
    PRet ([NText (firstn n (whole cs))], n)
  else
    PRet ((if nonempty lb then [NText lb] else []) ++ [NCitationReference (trim content) (trim content)],
          (if nonempty lb then length lb else 0) + (length start + length content + length fin)).

(* inline.rs:756-860 substitution_ref *)
Definition substitution_ref : inline_fun := fun doc cs =>
  let lb := opt_cap 1 cs in
  let* start := get_cap 2 cs in
  let* content := get_cap 3 cs in
  let ref_type := opt_cap 5 cs in
  let* fin := get_cap 4 cs in
  if quotation_matches lb content then
    let n := length lb + length start + 1 in
    PRet ([NText (firstn n (whole cs))], n)
  else if nonempty lb then PRet ([NText (to_latex lb)], length lb)
  else
    let* target :=
      (if nonempty ref_type then let* l := ref_label doc ref_type content in PRet (Some l)
       else PRet None) in
    PRet ([NSubstitutionReference (normalize_refname content) target],
          length lb + length start + length content + length fin + length ref_type).

(* inline.rs:865-967 uri *)
Definition inline_uri : inline_fun := fun _ cs =>
  let lb := opt_cap 1 cs in
  let* content := get_cap 2 cs in
  let scheme := opt_cap 4 cs in
  let authority := opt_cap 5 cs in
  let path := opt_cap 10 cs in
  let email := opt_cap 13 cs in
  if nonempty lb then PRet ([NText (to_latex lb)], length lb)
  else if negb (nonempty scheme) then
    if negb (nonempty email) then PRet ([NText email], length email)
    else PRet ([NReference None (REMail content)], length content)
  else
    let valid := negb (nonempty authority && nonempty path && negb (starts_with_char path (ch "/"))) in
    PRet ([if valid then NReference None (RURI content) else NText content], length content).

(* inline.rs:972-990 text *)
Definition inline_text : inline_fun := fun _ cs =>
  PRet ([NText (to_latex (whole cs))], length (whole cs)).

(* transitions.rs:388-465 INLINE_TRANSITIONS *)
Definition inline_table : list (re * inline_fun) :=
  [(INLINE_WHITESPACE, inline_whitespace);
   (STRONG_EMPH, paired_delimiter NStrongEmphasis);
   (EMPH, paired_delimiter NEmphasis);
   (LITERAL, paired_delimiter NLiteral);
   (INLINE_TARGET, inline_target);
   (PHRASE_REF, phrase_ref);
   (INTERPRETED_TEXT, interpreted_text);
   (FOOTNOTE_REF, footnote_ref);
   (CITATION_REF, citation_ref);
   (SIMPLE_REF, simple_ref);
   (SUBSTITUTION_REF, substitution_ref);
   (URI, inline_uri);
   (INLINE_TEXT, inline_text)].

(* mod.rs:418-440 match_inline_str *)
Fixpoint match_inline (tbl : list (re * inline_fun)) (doc : bool) (s : str)
    : prog (option (list TreeNodeType * nat)) :=
  match tbl with
  | [] => PRet None
  | (r, f) :: tbl' => match captures r s with
                      | Some cs => let* x := f doc cs in PRet (Some x)
                      | None => match_inline tbl' doc s
                      end
  end.
Definition match_inline_str (doc : bool) (s : str) : prog (option (list TreeNodeType * nat)) :=
  match s with [] => PRet None | _ => match_inline inline_table doc s end.

Definition newlines (s : str) : nat := length (filter (N.eqb newline) s).

(* mod.rs:371-411 inline_parse, the loop.  Besides the nodes the model keeps, for
   the statements about it, which piece of the text each group of nodes was made
   from and what was left at the end.  Fuel: one more than the characters left; a
   match that takes up no character would make the code loop forever. *)
Fixpoint inline_loop (fuel : nat) (doc : bool) (s : str)
    : prog (list (str * list TreeNodeType) * str) :=
  match fuel with
  | 0 => PFuel
  | S f =>
      let* m := match_inline_str doc s in
      match m with
      | None => PRet ([], s)
      | Some (nodes, offset) =>
          let piece := firstn offset s in
          let* _ := advance (newlines piece) in
          let* (pieces, rest) := inline_loop f doc (skipn offset s) in
          PRet ((piece, nodes) :: pieces, rest)
      end
  end.
Definition inline_pieces (doc : bool) (s : str) : prog (list (str * list TreeNodeType) * str) :=
  inline_loop (S (length s)) doc s.
(* mod.rs:371-411 inline_parse: [] is InlineParsingResult::NoNodes *)
Definition inline_parse (doc : bool) (s : str) : prog (list TreeNodeType) :=
  let* (pieces, _) := inline_pieces doc s in PRet (flat_map snd pieces).
