(* Patterns.v -- the patterns of /repo/src/parser/regex_patterns.rs (and the
   few local ones), transcribed.  Group numbers follow the order of opening
   parentheses, as in the regex crate; named groups get constants. *)
From Verif Require Import Base Unicode Regex.

Definition q (s : string) : str := lit s.
(* the double quote character, which has no Coq string literal *)
Definition dquote : char := 34%N.

Definition sp : char -> bool := is_whitespace.                     (* \s *)
Definition nsp : char -> bool := fun c => negb (is_whitespace c).  (* \S *)
Definition any : char -> bool := fun _ => true.                    (* [\S\s] *)
Definition dot : char -> bool := fun c => negb (N.eqb c newline).  (* . *)
Definition digit : char -> bool := is_ascii_digit.                 (* [0-9] *)
Definition udigit : char -> bool := in_ranges tbl_Nd.              (* \d *)
Definition alpha : char -> bool := is_ascii_alpha.                 (* [a-zA-Z] *)
Definition alnum : char -> bool := is_ascii_alnum.                 (* [a-zA-Z0-9] *)
(* [\S&&[^\\]] *)
Definition nsp_nbs : char -> bool := fun c => nsp c && negb (N.eqb c 92).
Definition space : re := Chr 32%N.
Definition spaces1 : re := Plus true space.                        (* space, one or more *)
Definition spaces0 : re := Star true space.                        (* space, any number *)
Definition ws0 : re := Star true (Cls sp).                         (* \s* *)
Definition after : re := Alt spaces1 Eot.                          (* spaces or end *)

(* regex_patterns.rs:54 ATTRIBUTION_PATTERN *)
Definition ATTRIBUTION : re :=
  Seq [Grp 1 ws0; Alts [Lit (q "--"); Lit (q "---"); Chr 0x2014%N]; spaces0].

(* regex_patterns.rs:57 BLANK_LINE_PATTERN  ^\s*$ *)
Definition BLANK_LINE : re := Seq [ws0; Eot].

(* regex_patterns.rs:60 BULLET_PATTERN *)
Definition bullet_char : char -> bool := cls_of (q "+-*" ++ [0x2022; 0x2023; 0x2043]%N).
Definition BULLET : re := Seq [Grp 1 ws0; Grp 2 (Cls bullet_char); after].

(* regex_patterns.rs:63 ENUMERATOR_PATTERN.  Groups: 1 indent; 2..7 parens, 8..13 rparen,
   14..19 period (each: arabic, lower roman, upper roman, lower alpha,
   upper alpha, auto); 20 after_marker. *)
Definition enum_alts (b : nat) : re :=
  Alts [Grp b (Plus true (Cls digit));
        Grp (b + 1) (Plus true (Cls (cls_of (q "ivxlcdm"))));
        Grp (b + 2) (Plus true (Cls (cls_of (q "IVXLCDM"))));
        Grp (b + 3) (Cls is_ascii_lower);
        Grp (b + 4) (Cls is_ascii_upper);
        Grp (b + 5) (Chr (ch "#"))].
Definition ENUMERATOR : re :=
  Seq [Grp 1 ws0;
       Alts [Seq [Chr (ch "("); enum_alts 2; Chr (ch ")")];
             Seq [enum_alts 8; Chr (ch ")")];
             Seq [enum_alts 14; Chr (ch ".")]];
       Grp 20 after].

(* regex_patterns.rs:158 FIELD_MARKER_PATTERN *)
Definition FIELD_MARKER : re :=
  Seq [Grp 1 ws0; Chr (ch ":");
       Grp 2 (Alt (Cls nsp_nbs) (Seq [Cls nsp; Star false (Cls dot); Cls nsp_nbs]));
       Chr (ch ":"); after].

(* regex_patterns.rs:161 INDENTED_LITERAL_BLOCK_PATTERN  ^(\s+)\S *)
Definition INDENTED_LITERAL_BLOCK : re := Seq [Grp 1 (Plus true (Cls sp)); Cls nsp].

(* the 32 ASCII punctuation characters of common.rs:493-497
   SECTION_AND_QUOTING_CHARS; QUOTED_LITERAL_BLOCK_PATTERN, LINE_PATTERN *)
Definition quote_chars : str :=
  q "!" ++ [dquote] ++ q "#$%&'()*+,-./:;<=>?@[\]^_`{|}~".
Definition is_quote_char : char -> bool := cls_of quote_chars.
Definition QUOTED_LITERAL_BLOCK : re := Seq [Grp 1 ws0; Grp 2 (Cls is_quote_char)].

(* regex_patterns.rs:168 GRID_TABLE_TOP_AND_BOT_PATTERN *)
Definition GRID_TABLE_TOP_AND_BOT : re :=
  Seq [Grp 1 ws0; Lit (q "+-"); Plus true (Cls (cls_of (q "-+"))); Lit (q "-+"); spaces0; Eot].
(* regex_patterns.rs:171 SIMPLE_TABLE_TOP_PATTERN = SIMPLE_TABLE_BOTTOM_PATTERN *)
Definition SIMPLE_TABLE_TOP : re :=
  Seq [Grp 1 ws0; Plus true (Chr (ch "="));
       Plus true (Grp 2 (Seq [spaces1; Plus true (Chr (ch "="))])); spaces0; Eot].

(* a run of the form (?:[seps][p]+) repeated *)
Definition sep_runs (seps : string) (p : char -> bool) : re :=
  Star true (Seq [Cls (cls_of (q seps)); Plus true (Cls p)]).

(* regex_patterns.rs:181 FOOTNOTE_PATTERN: groups 1 indent, 2 manual, 3 autonumbered, 4 simplename,
   5 autosymbol *)
Definition FOOTNOTE : re :=
  Seq [Grp 1 ws0; Lit (q ".."); spaces1; Chr (ch "[");
       Alts [Grp 2 (Plus true (Cls udigit));
             Grp 3 (Chr (ch "#"));
             Seq [Chr (ch "#");
                  Grp 4 (Seq [Cls alpha; Plus true (Cls alnum); sep_runs "-+._:" alnum])];
             Grp 5 (Chr (ch "*"))];
       Chr (ch "]"); after].

(* regex_patterns.rs:213 CITATION_PATTERN *)
Definition CITATION : re :=
  Seq [Grp 1 ws0; Lit (q ".."); spaces1; Chr (ch "[");
       Grp 2 (Seq [Cls alpha; Star true (Cls alnum); sep_runs "-+._:" alnum]);
       Chr (ch "]"); after].

(* regex_patterns.rs:218 HYPERLINK_TARGET_PATTERN *)
Definition alnum_sp : char -> bool := fun c => alnum c || N.eqb c 32.
Definition HYPERLINK_TARGET : re :=
  Seq [Grp 1 ws0; Lit (q ".."); spaces1; Chr (ch "_");
       Grp 2 (Alt (Seq [Cls alnum; Star true (Cls alnum_sp); sep_runs "-+._:" alnum_sp;
                        Plus true (Cls alnum)])
                  (Chr (ch "_")));
       Chr (ch ":"); after].

(* regex_patterns.rs:226 DIRECTIVE_PATTERN *)
Definition DIRECTIVE : re :=
  Seq [Grp 1 ws0; Lit (q ".."); spaces1;
       Grp 2 (Seq [Cls alpha; Plus true (Cls alnum); sep_runs "-+._:" alnum]);
       Opt space; Lit (q "::"); after].

(* regex_patterns.rs:231 COMMENT_PATTERN *)
Definition COMMENT : re := Seq [Grp 1 ws0; Lit (q ".."); after].

(* regex_patterns.rs:234 LINE_PATTERN: a run of one and the same punctuation character *)
Definition LINE : re :=
  Seq [Grp 1 (Alts (map (fun c => Plus true (Chr c)) quote_chars)); spaces0; Eot].

(* regex_patterns.rs:239 TEXT_PATTERN *)
Definition TEXT : re := Seq [Grp 1 ws0; Cls nsp].

(* ---------------- inline patterns ---------------- *)

(* regex_patterns.rs:245 INLINE_WHITESPACE_PATTERN  ^\s+ *)
Definition INLINE_WHITESPACE : re := Plus true (Cls sp).

Definition cat_Ps := in_ranges tbl_Ps.
Definition cat_Pe := in_ranges tbl_Pe.
Definition cat_Pi := in_ranges tbl_Pi.
Definition cat_Pf := in_ranges tbl_Pf.
Definition cat_Pd := in_ranges tbl_Pd.
Definition cat_Po := in_ranges tbl_Po.

(* the lookbehind class of the inline patterns: a union, minus backslash and star *)
Definition lookbehind_cls (c : char) : bool :=
  (cls_of (dquote :: q "-:/'<([{") c || cat_Ps c || cat_Pi c || cat_Pf c
   || cat_Pd c || cat_Po c || sp c) && negb (cls_of (q "\*") c).
(* the lookahead class of the inline patterns *)
Definition lookahead_all (c : char) : bool :=
  cls_of (dquote :: q "-.,:;!?\/')]}>") c || cat_Pe c || cat_Pi c || cat_Pf c
  || cat_Pd c || cat_Po c.
Definition lookahead_cls (c : char) : bool :=
  lookahead_all c && negb (N.eqb c (ch "*")).

Definition LB : re := Opt (Grp 1 (Cls lookbehind_cls)).
Definition LA (n : nat) : re := Grp n (Alts [Cls sp; Cls lookahead_cls; Eot]).
(* [\S&&[^\\]]|\S[\S\s]*?[\S&&[^\\]] *)
Definition content_re : re :=
  Alt (Cls nsp_nbs) (Seq [Cls nsp; Star false (Cls any); Cls nsp_nbs]).

(* Groups of the simple inline patterns: 1 lookbehind, 2 markup_start,
   3 content, 4 markup_end, 5 lookahead. *)
Definition simple_inline (start fin : string) : re :=
  Seq [LB; Grp 2 (Lit (q start)); Grp 3 content_re; Grp 4 (Lit (q fin)); LA 5].
Definition STRONG_EMPH : re := simple_inline "**" "**".
Definition EMPH : re := simple_inline "*" "*".
Definition LITERAL : re := simple_inline "``" "``".
Definition INLINE_TARGET : re := simple_inline "_`" "`".

(* \S|\S.*?\S *)
Definition role_re : re := Alt (Cls nsp) (Seq [Cls nsp; Star false (Cls dot); Cls nsp]).
(* regex_patterns.rs:319 INTERPRETED_TEXT_PATTERN: 1 lookbehind, 2 front_role_marker, 3 front_role,
   4 markup_start, 5 content, 6 markup_end, 7 back_role_marker, 8 back_role,
   9 lookahead *)
Definition INTERPRETED_TEXT : re :=
  Seq [LB;
       Opt (Grp 2 (Seq [Chr (ch ":"); Grp 3 role_re; Chr (ch ":")]));
       Grp 4 (Chr (ch "`")); Grp 5 content_re; Grp 6 (Chr (ch "`"));
       Opt (Grp 7 (Seq [Chr (ch ":"); Grp 8 role_re; Chr (ch ":")]));
       LA 9].

(* __? *)
Definition ref_type_re : re := Seq [Chr (ch "_"); Opt (Chr (ch "_"))].
(* regex_patterns.rs:348 PHRASE_REF_PATTERN: 1 lookbehind, 2 markup_start, 3 content,
   4 embeded_uri_container (sic), 5 embedded_uri, 6 markup_end, 7 ref_type,
   8 lookahead *)
Definition PHRASE_REF : re :=
  Seq [LB; Grp 2 (Chr (ch "`")); Grp 3 content_re;
       Opt (Grp 4 (Seq [Plus true (Cls sp); Chr (ch "<"); Grp 5 content_re; Chr (ch ">")]));
       Grp 6 (Chr (ch "`")); Grp 7 ref_type_re; LA 8].

(* regex_patterns.rs:377 SIMPLE_REF_PATTERN: 1 lookbehind, 2 content, 3 ref_type, 4 lookahead *)
Definition SIMPLE_REF : re :=
  Seq [LB; Grp 2 (Seq [Plus true (Cls alnum); sep_runs "-_.:+" alnum]);
       Grp 3 ref_type_re; LA 4].

(* regex_patterns.rs:392 FOOTNOTE_REF_PATTERN: 1 lookbehind, 2 markup_start, 3 content, 4 number,
   5 auto_number, 6 auto_number_label, 7 (inner), 8 symbol, 9 markup_end,
   10 ref_type, 11 lookahead *)
Definition FOOTNOTE_REF : re :=
  Seq [LB; Grp 2 (Chr (ch "["));
       Grp 3 (Alts [Grp 4 (Plus true (Cls digit));
                    Grp 5 (Chr (ch "#"));
                    Seq [Chr (ch "#");
                         Grp 6 (Seq [Cls alpha;
                           Star true (Grp 7 (Seq [Opt (Chr (ch "-")); Plus true (Cls alnum)]))])];
                    Grp 8 (Chr (ch "*"))]);
       Grp 9 (Chr (ch "]")); Grp 10 ref_type_re; LA 11].

(* regex_patterns.rs:427 CITATION_REF_PATTERN: 1 lookbehind, 2 markup_start, 3 content, 4 markup_end,
   5 lookahead *)
Definition CITATION_REF : re :=
  Seq [LB; Grp 2 (Chr (ch "["));
       Grp 3 (Seq [Cls alnum; Star true (Cls alnum);
                   Star true (Seq [Opt (Cls (cls_of (q "-_."))); Plus true (Cls alnum)])]);
       Grp 4 (Lit (q "]_")); LA 5].

(* regex_patterns.rs:445 SUBSTITUTION_REF_PATTERN: 1 lookbehind, 2 markup_start, 3 content,
   4 markup_end, 5 ref_type, 6 lookahead *)
Definition SUBSTITUTION_REF : re :=
  Seq [LB; Grp 2 (Chr (ch "|")); Grp 3 content_re; Grp 4 (Chr (ch "|"));
       Opt (Grp 5 ref_type_re); LA 6].

(* regex_patterns.rs:466 URI_PATTERN: 1 lookbehind, 2 content, 3 absolute, 4 scheme, 5 authority,
   6 (inner), 7 userinfo, 8 host, 9 port, 10 path, 11 query, 12 fragment,
   13 email, 14 lookahead *)
Definition uri_schemes : list string :=
  ["about"; "acap"; "addbook"; "afp"; "afs"; "aim"; "callto"; "castanet"; "chttp"; "cid";
   "crid"; "data"; "dav"; "dict"; "dns"; "eid"; "fax"; "feed"; "file"; "finger"; "freenet";
   "ftp"; "go"; "gopher"; "gsm-sms"; "h323"; "h324"; "hdl"; "hnews"; "http"; "https"; "hydra";
   "iioploc"; "ilu"; "im"; "imap"; "info"; "ior"; "ipp"; "irc"; "iris.beep"; "iseek"; "jar";
   "javascript"; "jdbc"; "ldap"; "lifn"; "livescript"; "lrq"; "mailbox"; "mailserver";
   "mailto"; "md5"; "mid"; "mocha"; "modem"; "mtqp"; "mupdate"; "news"; "nfs"; "nntp";
   "opaquelocktoken"; "phone"; "pop"; "pop3"; "pres"; "printer"; "prospero"; "rdar"; "res";
   "rtsp"; "rvp"; "rwhois"; "rx"; "sdp"; "service"; "shttp"; "sip"; "sips"; "smb"; "snews";
   "snmp"; "soap.beep"; "soap.beeps"; "ssh"; "t120"; "tag"; "tcp"; "tel"; "telephone";
   "telnet"; "tftp"; "tip"; "tn3270"; "tv"; "urn"; "uuid"; "vemmi"; "videotex";
   "view-source"; "wais"; "whodp"; "whois"; "x-man-page"; "xmlrpc.beep"; "xmlrpc.beeps";
   "z39.50r"; "z39.50s"]%string.
(* In the pattern a `.` of a scheme name is the any-character class, and
   `whois++` is (whois+)+ on its last letter: one or more s. *)
Definition scheme_char (c : char) : re := if N.eqb c (ch ".") then Cls dot else Chr c.
Definition scheme_re (s : string) : re :=
  if String.eqb s "whois" then Seq [Lit (q "whoi"); Plus true (Chr (ch "s"))]
  else Seq (map scheme_char (q s)).
Definition uri_suffix : char -> bool := fun c => cls_of (q "_~*/=+") c || alnum c.
Definition d13 : re := Seq [Cls digit; Opt (Seq [Cls digit; Opt (Cls digit)])].  (* [0-9]{1,3} *)
Definition path_cls : char -> bool := fun c => alnum c || cls_of (q "~_.") c.
Definition dash_alnum : char -> bool := fun c => cls_of (q "-_") c || alnum c.
Definition email_mid : char -> bool :=
  fun c => cls_of (q "-_!~*'{|}/#?^`&=+$%") c || alnum c.
Definition URI : re :=
  Seq [Opt (Grp 1 (Alt (Cls sp)
              (Cls (fun c => cls_of (dquote :: q "-:/'<([{") c || cat_Ps c || cat_Pi c
                             || cat_Pf c || cat_Pd c || cat_Po c))));
       Grp 2 (Alt
         (Grp 3 (Seq
            [Grp 4 (Alts (map scheme_re uri_schemes)); Chr (ch ":");
             Opt (Grp 5 (Seq
               [Opt (Grp 6 (Seq [Chr (ch "/"); Opt (Chr (ch "/"))]));
                Opt (Seq [Grp 7 (Seq [Plus true (Cls alnum); sep_runs "." alnum]); Chr (ch "@")]);
                Grp 8 (Alt (Seq [Plus true (Cls alnum); sep_runs "-.+" alnum])
                           (Seq [d13; Seq [Chr (ch "."); d13]; Seq [Chr (ch "."); d13];
                                 Seq [Chr (ch "."); d13]]));
                Opt (Seq [Chr (ch ":"); Grp 9 (Plus true (Cls digit))])]));
             Grp 10 (Seq [Opt (Chr (ch "/")); Star true (Cls path_cls);
                          Star true (Seq [Chr (ch "/"); Plus true (Cls path_cls)]);
                          Opt (Chr (ch "/"))]);
             Cls uri_suffix;
             Opt (Seq [Chr (ch "?");
                       Grp 11 (Seq [Plus true (Cls (fun c => cls_of (q "=&") c || alnum c));
                                    Cls uri_suffix])]);
             Opt (Seq [Chr (ch "#");
                       Grp 12 (Seq [Plus true (Cls alnum); Cls uri_suffix])])]))
         (Grp 13 (Seq
            [Plus true (Cls dash_alnum);
             Star true (Seq [Chr (ch "."); Plus true (Cls email_mid)]);
             Chr (ch "@"); Plus true (Cls dash_alnum); sep_runs ".-" alnum])));
       Grp 14 (Alts [Cls sp; Cls lookahead_all; Eot])].

(* regex_patterns.rs:530 INLINE_TEXT_PATTERN  ^(\S+) *)
Definition INLINE_TEXT : re := Grp 1 (Plus true (Cls nsp)).

(* ---------------- A+ patterns ---------------- *)
(* regex_patterns.rs:539 APLUS_COL_BREAK_PATTERN  ^(\s+)::newcol *)
Definition APLUS_COL_BREAK : re := Seq [Grp 1 (Plus true (Cls sp)); Lit (q "::newcol")].
(* regex_patterns.rs:542 APLUS_QUESTIONNAIRE_DIRECTIVE_PATTERN *)
Definition APLUS_QUESTIONNAIRE_DIRECTIVE : re :=
  Seq [Grp 1 ws0; Lit (q ".."); spaces1;
       Grp 2 (Alts [Lit (q "pick-one"); Lit (q "pick-any"); Lit (q "freetext")]);
       Lit (q "::"); after].
(* directive_parsers.rs:1765: 1 indent, 2 pre_selected, 3 correct, 4 label, 5 answer *)
Definition PICK_ONE_CHOICE : re :=
  Seq [Grp 1 ws0; Opt (Grp 2 (Chr (ch "+"))); Opt (Grp 3 (Chr (ch "*")));
       Grp 4 (Plus true (Cls nsp)); Chr (ch "."); spaces1; Grp 5 (Plus true (Cls dot))].
(* directive_parsers.rs:2190: 1 indent, 2 pre_selected, 3 neutral, 4 correct,
   5 label, 6 answer *)
Definition PICK_ANY_CHOICE : re :=
  Seq [Grp 1 ws0; Opt (Grp 2 (Chr (ch "+")));
       Opt (Alt (Grp 3 (Chr (ch "?"))) (Grp 4 (Chr (ch "*"))));
       Grp 5 (Plus true (Cls nsp)); Chr (ch "."); spaces1; Grp 6 (Plus true (Cls dot))].
(* directive_parsers.rs:1767 and 2191: 1 indent, 2 show_not_answered, 3 label,
   4 hint; :2823 has .+ instead of \S+ for the label *)
Definition pick_hint (lab : char -> bool) : re :=
  Seq [Grp 1 ws0; Opt (Grp 2 (Chr (ch "!"))); Grp 3 (Plus true (Cls lab)); spaces0;
       Chr 0xA7%N; spaces0; Grp 4 (Plus true (Cls dot))].
Definition PICK_HINT : re := pick_hint nsp.
Definition FREETEXT_HINT : re := pick_hint dot.
(* directive_parsers.rs:3875: 1 key, 2 difficulty, 3 max_points *)
Definition EXERCISE_ARGS : re :=
  Seq [Opt (Grp 1 (Plus true (Cls alnum))); spaces0;
       Opt (Grp 2 (Cls is_ascii_upper)); Opt (Grp 3 (Plus true (Cls digit)))].

(* converters.rs:409-410: 1 number, 2 unit; 455-456 *)
Definition number_re : re :=
  Alt (Seq [Plus true (Cls digit); Opt (Seq [Chr (ch "."); Star true (Cls digit)])])
      (Seq [Chr (ch "."); Plus true (Cls digit)]).
Definition LENGTH_RE : re :=
  Seq [Grp 1 number_re;
       Grp 2 (Alts (map (fun u => Lit (q u)) ["em"; "ex"; "mm"; "cm"; "in"; "px"; "pt"; "pc"]%string));
       Eot].
Definition PERCENTAGE_RE : re :=
  Seq [Grp 1 number_re; ws0; Grp 2 (Chr (ch "%")); Eot].

(* body.rs:2203  (\s{0,1}|\S)::$ , unanchored; 1 the character before *)
Definition LITERAL_BLOCK_INDICATOR : re :=
  Seq [Grp 1 (Alt (Opt (Cls sp)) (Cls nsp)); Lit (q "::"); Eot].
