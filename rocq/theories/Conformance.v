(* Conformance.v -- generated by tools/conformance.py.  The parser tests of
   /repo/src/parser/tests, run in the model: for each test the variants it
   expects at the paths it looks at.  These are tests of the model, not proofs. *)
From Verif Require Import Base Common NodeTypes Tree DocTree Prog ParseLoop Parser ConformanceBase.

(* test_admonitions.rs standard_admonition_01 *)
Example standard_admonition_01 : conforms false [
  [];
  lit ".. note:: This is a note admonition.";
  lit "  This is the second line of the first paragraph.";
  [];
  lit ".. warning::";
  lit "    This is another admonition.";
  lit "    This is the second line of the first paragraph.";
  [];
  lit ".. tip::";
  lit "  :name: test";
  lit "  :class: class";
  lit "  :extra: extra (this should be ignored)";
  [];
  lit "  This paragraph forms the contents of the tip admonition above.";
  lit "  If content is not found, the parser will panic.";
  []] [([0], KAdmonition); ([0; 0], KParagraph); ([1], KAdmonition); ([1; 0], KParagraph); ([2], KAdmonition); ([2; 0], KParagraph)] = true.
Proof. vm_compute. reflexivity. Qed.
(* test_admonitions.rs generic_admonition_01 *)
Example generic_admonition_01 : conforms false [
  [];
  lit ".. admonition:: This is a generic admonition with the argument on the first";
  lit "    line after the directive marker and extending on the following line as well.";
  lit "    :option1: This is not recognized as an admonition option, only ""class"" and ""name"" are valid.";
  lit "    :name: hyperref target name";
  [];
  lit "    This paragraph starts the admonition contents.";
  lit "    Here is a second line.";
  [];
  lit "This paragraph no longer belongs to the above admonition.";
  []] [([0], KAdmonition); ([0; 0], KParagraph); ([1], KParagraph)] = true.
Proof. vm_compute. reflexivity. Qed.
(* test_admonitions.rs generic_admonition_02 *)
Example generic_admonition_02 : conforms false [
  [];
  lit ".. admonition::";
  lit "  This is a generic admonition, the argument of which starts on";
  lit "  the line following the directive marker.";
  lit "  :class: options start here";
  lit "  :name: here is a reference name";
  lit "  :unrecognized: This option is discarded by the parsing function.";
  [];
  lit "  The admonition contents start here,";
  lit "  with a single paragraph.";
  [];
  lit "  - followed by";
  lit "  - a bullet list";
  []] [([0], KAdmonition); ([0; 0], KParagraph); ([0; 1], KBulletList); ([0; 1; 0], KBulletListItem); ([0; 1; 1], KBulletListItem)] = true.
Proof. vm_compute. reflexivity. Qed.
(* test_aplus_point_of_interest.rs poi_01 *)
Example poi_01 : conforms false [
  [];
  lit ".. point-of-interest:: Title text";
  lit "  :id: unique id, if not supplied a random id will be generated";
  lit "  :previous: id of previous point-of-interest (optional)";
  lit "  :next: id of next point-of-interest (optional)";
  lit "  :hidden: (if this flag is present, the content of this poi is hidden by default)";
  lit "  :class: any additional css classes";
  lit "  :height: fixed height in pixels";
  lit "  :columns: relative width of each column (e.g. for three columns 2 2 3)";
  lit "  :bgimg: path to background image";
  lit "  :not_in_slides: a flag used with the presentation maker. This POI does not show in the slides if this is defined.";
  lit "  :not_in_book: If this flag is given, this POI does not appear in the A+ content chapter.";
  lit "  :no_poi_box: Removes surrounding box and navigation";
  [];
  lit "  Content of point-of-interest here.";
  [];
  lit "  Use ::newcol to start a new column:";
  [];
  lit "  ::newcol";
  [];
  lit "  New column starts here. If :columns: option not present columns of equal width will be created.";
  lit "  (The presentation maker slides do not support the newcol feature.)";
  [];
  []] [([0], KAplusPOI); ([0; 0], KParagraph); ([0; 1], KParagraph); ([0; 2], KAplusColBreak); ([0; 3], KParagraph)] = true.
Proof. vm_compute. reflexivity. Qed.
(* test_aplus_questionnaire.rs aplus_questionnaire_01 *)
Example aplus_questionnaire_01 : conforms false [
  [];
  lit ".. questionnaire:: 1 A";
  lit "  :submissions: 4";
  lit "  :points-to-pass: 0";
  [];
  lit "  This is a questionnaire with the key `1` that grants at maximum 70 points";
  lit "  of difficulty A. Students can make at most 4 submissions.";
  lit "  This exercise is marked passed when 0 points are reached (the default).";
  [];
  lit "  .. pick-one:: 10";
  lit "    :required:";
  [];
  lit "    What is 1+1?";
  [];
  lit "    a. 1";
  lit "    *b. 2";
  lit "    c. 3";
  [];
  lit "    !b " ++ [167%N] ++ lit " Count again!";
  lit "    b " ++ [167%N] ++ lit " That is correct!";
  lit "    c " ++ [167%N] ++ lit " Too much";
  [];
  lit "  (Hints can be included or omitted in any question.)";
  [];
  lit "  .. pick-one:: 10";
  lit "    :required:";
  lit "    :dropdown:";
  [];
  lit "    What is 1+2?";
  [];
  lit "    +0. 0";
  lit "    1. 1";
  lit "    2. 2";
  lit "    *3. 3";
  [];
  lit "  .. pick-any:: 10";
  lit "    :partial-points:";
  [];
  lit "    Pick the two **first**. Since the 'partial-points' option is set,";
  lit "    some points are awarded with a partially correct answer. If either one of the";
  lit "    correct options is not chosen or one of the wrong fields is chosen, 5 points are";
  lit "    still awarded. Selecting the last neutral option does not affect the points.";
  [];
  lit "    +*a. this is the **first**";
  lit "    *b. this is the **second**";
  lit "    c. this is the **third**";
  lit "    d. this is the **fourth**";
  lit "    ?e. choosing this does not affect the granted points";
  [];
  lit "  .. freetext:: 30 string-ignorews-ignorequotes-requirecase";
  lit "    :length: 10";
  [];
  lit "    A textual input can be compared with the model solution as integer, float or string.";
  lit "    Here the correct answer is ""test"". Surrounding quotes are ignored in the solution";
  lit "    as well as whitespace everywhere (modifiers ignorequotes and ignorews).";
  [];
  lit "    test";
  lit "    !test " ++ [167%N] ++ lit " Follow the instruction.";
  lit "    regexp:Test|TEST " ++ [167%N] ++ lit " Use the lower case!";
  [];
  lit "  .. freetext:: 10 regexp";
  [];
  lit "    This question accepts either ""red"" or ""blue"" as the correct answer.";
  lit "    The model solution is a regular expression.";
  [];
  lit "    red|blue"] [([0], KAplusQuestionnaire); ([0; 0], KParagraph); ([0; 1], KAplusPickOne); ([0; 2], KParagraph); ([0; 3], KAplusPickOne); ([0; 4], KAplusPickAny); ([0; 5], KAplusFreeText); ([0; 6], KAplusFreeText)] = true.
Proof. vm_compute. reflexivity. Qed.
(* test_aplus_questionnaire.rs aplus_questionnaire_02 *)
Example aplus_questionnaire_02 : conforms false [
  [];
  lit "(K) Suostumus anonyymin kurssidatan tutkimusk" ++ [228%N] ++ lit "ytt" ++ [246%N] ++ [246%N] ++ lit "n";
  lit "====================================================";
  [];
  lit "Kurssin aikana kurssin tietoj" ++ [228%N] ++ lit "rjestelmiin (Plussa, GitLab) syntyy";
  lit "opiskelijoiden tuottamaa dataa.";
  lit "Yliopiston yksi teht" ++ [228%N] ++ lit "vist" ++ [228%N] ++ lit " on tutkimus, ja siten t" ++ [228%N] ++ lit "t" ++ [228%N] ++ lit " dataa halutaan";
  lit "hy" ++ [246%N] ++ lit "dynt" ++ [228%N] ++ [228%N] ++ lit " opetuksen ja ohjelmistokehityksen tutkimusty" ++ [246%N] ++ lit "ss" ++ [228%N] ++ lit ".";
  lit "T" ++ [228%N] ++ lit "m" ++ [228%N] ++ lit " parantaa opetuksen laatua ja luo uutta tietoa.";
  lit "Kaikki data k" ++ [228%N] ++ lit "sitell" ++ [228%N] ++ [228%N] ++ lit "n tutkimuksissa anonyymisti, eik" ++ [228%N] ++ lit " yksitt" ++ [228%N] ++ lit "ist" ++ [228%N];
  lit "opiskelijaa voi tunnistaa.";
  [];
  lit "Kurssi pyyt" ++ [228%N] ++ [228%N] ++ lit " siten jokaiselta opiskelijalta suostumuksen datan k" ++ [228%N] ++ lit "ytt" ++ [246%N] ++ [246%N] ++ lit "n.";
  [];
  lit ".. questionnaire:: gdpr 10";
  lit "  :category: N";
  lit "  :submissions: 2";
  lit "  :points-to-pass: 0";
  [];
  [];
  lit "  .. pick-one:: 10";
  [];
  lit "    Annan luvan k" ++ [228%N] ++ lit "ytt" ++ [228%N] ++ [228%N] ++ lit " kurssidataa anonymisoituna tutkimustarkoituksiin";
  [];
  lit "    *a. Kyll" ++ [228%N];
  lit "    *b. En";
  []] [([0; 2], KAplusQuestionnaire); ([0; 2; 0], KAplusPickOne); ([0; 2; 0; 0], KParagraph); ([0; 2; 0; 1], KAplusPickChoices); ([0; 2; 0; 1; 0], KAplusPickChoice); ([0; 2; 0; 1; 1], KAplusPickChoice)] = true.
Proof. vm_compute. reflexivity. Qed.
(* test_block_quotes.rs block_quote_01 *)
Example block_quote_01 : conforms false [
  [];
  lit "  This is a paragraph inside a block quote.";
  lit "  Indentation determines quotation level.";
  [];
  lit "    This second paragraph is inside a nested block quote,";
  lit "    as this has more indentation the the above paragraph.";
  [];
  lit "  This paragraph is again at the first level of quotation.";
  []] [([0], KBlockQuote); ([0; 0], KParagraph); ([0; 1], KBlockQuote); ([0; 1; 0], KParagraph); ([0; 2], KParagraph)] = true.
Proof. vm_compute. reflexivity. Qed.
(* test_block_quotes.rs block_quote_02 *)
Example block_quote_02 : conforms false [
  [];
  lit "  This is a paragraph inside a block quote.";
  lit "  Indentation determines quotation level.";
  lit "  The following attribution ends this block quote";
  [];
  lit "  -- Santtu S" ++ [246%N] ++ lit "derholm";
  [];
  lit "  This paragraph starts a new block quote at the same level";
  lit "  as the previous one (as in it is not nested).";
  []] [([0], KBlockQuote); ([0; 0], KParagraph); ([0; 1], KAttribution); ([1], KBlockQuote); ([1; 0], KParagraph)] = true.
Proof. vm_compute. reflexivity. Qed.
(* test_block_quotes.rs block_quote_03 *)
Example block_quote_03 : conforms false [
  [];
  lit "  This is a paragraph inside a block quote.";
  lit "  Indentation determines quotation level.";
  lit "  The below attribution does not end this block quote,";
  lit "  as it is indented relative to this block quote level.";
  [];
  lit "    -- Santtu S" ++ [246%N] ++ lit "derholm inside a nested block quote";
  [];
  lit "  This paragraph continues the first block quote,";
  lit "  as the above attribution ends the nested block quote";
  lit "  it also ended up triggering.";
  []] [([0], KBlockQuote); ([0; 0], KParagraph); ([0; 1], KBlockQuote); ([0; 1; 0], KAttribution); ([0; 2], KParagraph)] = true.
Proof. vm_compute. reflexivity. Qed.
(* test_block_quotes.rs block_quote_04 *)
Example block_quote_04 : conforms false [
  [];
  lit "  Below is a multi-line attribution";
  [];
  lit "  -- Santtu S" ++ [246%N] ++ lit "derholm";
  lit "    and company";
  [];
  lit "The attribution will be combined into a single line,";
  lit "at least for now."] [([0], KBlockQuote); ([0; 1], KAttribution); ([1], KParagraph)] = true.
Proof. vm_compute. reflexivity. Qed.
(* test_block_quotes.rs block_quote_05 *)
Example block_quote_05 : conforms false [
  [];
  lit "  Below is a multi-line attribution";
  [];
  lit "  -- Santtu S" ++ [246%N] ++ lit "derholm";
  lit " and company with too little indentation on the second line.";
  lit " This indented block actually ends up inside another less indented";
  lit " block quote as a paragraph.";
  []] [([0], KBlockQuote); ([0; 1], KAttribution); ([1], KBlockQuote); ([1; 0], KParagraph)] = true.
Proof. vm_compute. reflexivity. Qed.
(* test_bullet_lists.rs bullet_list_01 *)
Example bullet_list_01 : conforms false [
  [];
  lit "- This is the first bullet list item."] [([0], KBulletList)] = true.
Proof. vm_compute. reflexivity. Qed.
(* test_bullet_lists.rs bullet_list_02 *)
Example bullet_list_02 : conforms false [
  [];
  lit "- List item 1";
  [];
  lit "  Second paragraph of the list item.";
  [];
  lit "  Third paragraph of this list item...";
  []] [([0; 0; 0], KParagraph); ([0; 0; 1], KParagraph)] = true.
Proof. vm_compute. reflexivity. Qed.
(* test_bullet_lists.rs bullet_list_03 *)
Example bullet_list_03 : conforms false [
  [];
  lit "- List item 1";
  [];
  lit "  Second paragraph of the list item.";
  [];
  lit "- List item 2";
  []] [([0; 0], KBulletListItem); ([0; 1], KBulletListItem); ([0; 0; 0], KParagraph); ([0; 0; 1], KParagraph)] = true.
Proof. vm_compute. reflexivity. Qed.
(* test_bullet_lists.rs bullet_list_04 *)
Example bullet_list_04 : conforms false [
  [];
  lit "- List item 1";
  [];
  lit "  Second paragraph of the list item.";
  [];
  lit "- List item 2";
  [];
  lit "asfasdfdsfasfasdfasfd";
  []] [([0; 0], KBulletListItem); ([0; 1], KBulletListItem); ([0; 0; 0], KParagraph); ([0; 0; 1], KParagraph); ([1], KParagraph)] = true.
Proof. vm_compute. reflexivity. Qed.
(* test_bullet_lists.rs bullet_list_05 *)
Example bullet_list_05 : conforms false [
  [];
  lit "- List item 1";
  [];
  lit "  Second paragraph of the list item.";
  [];
  lit "  - Sublist item 1";
  [];
  lit "  - Sublist item 2";
  [];
  lit "- List item 2";
  [];
  lit "asfasdfdsfasfasdfasfd";
  []] [([0; 0], KBulletListItem); ([0; 0; 2], KBulletList); ([0; 1], KBulletListItem)] = true.
Proof. vm_compute. reflexivity. Qed.
(* test_bullet_lists.rs bullet_list_06 *)
Example bullet_list_06 : conforms false [
  [];
  lit "+ List item 1";
  [];
  lit "  Second paragraph of the list item.";
  [];
  lit "  - Sublist item 1";
  [];
  lit "  - Sublist item 2";
  [];
  lit "    * Subsublist item 1";
  [];
  lit "    * Subsublist item 2";
  [];
  lit "  - Sublist item 3";
  [];
  lit "+ List item 2";
  [];
  lit "asfasdfdsfasfasdfasfd";
  []] [([0; 0], KBulletListItem); ([0; 0; 0], KParagraph); ([0; 0; 2], KBulletList); ([0; 0; 2; 0], KBulletListItem); ([0; 0; 2; 1], KBulletListItem); ([0; 0; 2; 1; 1], KBulletList); ([0; 1], KBulletListItem)] = true.
Proof. vm_compute. reflexivity. Qed.
(* test_class.rs class_01 *)
Example class_01 : conforms false [
  [];
  lit ".. class:: class1 class2 class3";
  [];
  lit "  This paragraph will receive the above class";
  lit "  attributes during the transformtion stage of parsing.";
  [];
  lit "  * So";
  lit "  * Will";
  lit "  * This";
  lit "  * bullet list";
  [];
  lit "This paragraph is no longer of classes 1, 2 and 3.";
  []] [([0], KClass); ([0; 0], KParagraph); ([0; 1], KBulletList); ([1], KParagraph)] = true.
Proof. vm_compute. reflexivity. Qed.
(* test_comments.rs comment_01 *)
Example comment_01 : conforms false [
  [];
  lit ".. This is a comment on a single line"] [([0], KComment)] = true.
Proof. vm_compute. reflexivity. Qed.
(* test_comments.rs comment_02 *)
Example comment_02 : conforms false [
  [];
  lit "..";
  lit "  This is a single-line comment on the line following the marker"] [([0], KComment)] = true.
Proof. vm_compute. reflexivity. Qed.
(* test_comments.rs comment_03 *)
Example comment_03 : conforms false [
  [];
  lit "..";
  [];
  lit "The above comment is empty."] [([0], KComment); ([1], KParagraph)] = true.
Proof. vm_compute. reflexivity. Qed.
(* test_comments.rs comment_04 *)
Example comment_04 : conforms false [
  [];
  lit "* ..";
  lit "    This is a comment inside a bullet list item";
  [];
  lit "  This here is a paragraph inside the same item.";
  [];
  lit "This paragraph ends the test...";
  []] [([0], KBulletList); ([0; 0], KBulletListItem); ([0; 0; 0], KComment); ([0; 0; 1], KParagraph); ([1], KParagraph)] = true.
Proof. vm_compute. reflexivity. Qed.
(* test_definition_lists.rs definition_list_01 *)
Example definition_list_01 : conforms false [
  [];
  lit "term 1";
  lit "  Definition 1.";
  [];
  lit "term 2";
  lit "  Definition 2, paragraph 1.";
  [];
  lit "  Definition 2, paragraph 2.";
  [];
  lit "term 3 : classifier";
  lit "  Definition 3.";
  [];
  lit "term 4 : classifier one : classifier two";
  lit "  Definition 4."] [([0], KDefinitionList); ([0; 0], KDefinitionListItem); ([0; 1], KDefinitionListItem); ([0; 2], KDefinitionListItem); ([0; 3], KDefinitionListItem)] = true.
Proof. vm_compute. reflexivity. Qed.
(* test_enumerated_lists.rs enumerated_list_01 *)
Example enumerated_list_01 : conforms false [
  [];
  lit "(i) List item 1";
  lit "    with a valid second line";
  [];
  lit "Some unindented text.";
  []] [([0], KEnumeratedList); ([0; 0], KEnumeratedListItem); ([0; 0; 0], KParagraph)] = true.
Proof. vm_compute. reflexivity. Qed.
(* test_enumerated_lists.rs enumerated_list_02 *)
Example enumerated_list_02 : conforms false [
  [];
  lit "(i) List item 1";
  lit "    with a valid second line";
  [];
  lit "    Second paragraph of this list item.";
  [];
  lit "(i) List item 1";
  lit "    of a second list";
  []] [([0], KEnumeratedList); ([1], KEnumeratedList); ([0; 0; 0], KParagraph); ([0; 0; 1], KParagraph)] = true.
Proof. vm_compute. reflexivity. Qed.
(* test_enumerated_lists.rs enumerated_list_03 *)
Example enumerated_list_03 : conforms false [
  [];
  lit "(i) a) List item ia";
  lit "       with a valid second line";
  [];
  lit "    Second paragraph of list item i.";
  [];
  lit "(i) List item 1";
  lit "    of a second list";
  []] [([0], KEnumeratedList); ([0; 0], KEnumeratedListItem); ([0; 0; 0], KEnumeratedList); ([0; 0; 0; 0], KEnumeratedListItem); ([0; 0; 0; 0; 0], KParagraph); ([0; 0; 1], KParagraph); ([1], KEnumeratedList); ([1; 0], KEnumeratedListItem); ([1; 0; 0], KParagraph)] = true.
Proof. vm_compute. reflexivity. Qed.
(* test_enumerated_lists.rs enumerated_list_04 *)
Example enumerated_list_04 : conforms false [
  [];
  lit "(#) First item of automatically numbered list";
  [];
  lit "(#) Second item of automatically numbered list";
  [];
  lit "(3) Third item that has to match with the internal counter of the list";
  [];
  lit "(#) Fourth item of the same list, with automatic numbering, again.";
  []] [([0], KEnumeratedList); ([0; 0], KEnumeratedListItem); ([0; 1], KEnumeratedListItem); ([0; 2], KEnumeratedListItem); ([0; 3], KEnumeratedListItem)] = true.
Proof. vm_compute. reflexivity. Qed.
(* test_enumerated_lists.rs enumerated_list_05 *)
Example enumerated_list_05 : conforms false [
  [];
  lit "(i) #) List item i1";
  lit "       with a valid second line";
  [];
  lit "    ii) List item i2";
  [];
  lit "    #) List item i3";
  [];
  lit "    First paragraph of list item i.";
  [];
  lit "(#) List item ii";
  [];
  lit "(iii) List item iii";
  []] [([0], KEnumeratedList); ([0; 0], KEnumeratedListItem); ([0; 0; 0], KEnumeratedList); ([0; 0; 0; 0], KEnumeratedListItem); ([0; 0; 1], KEnumeratedList); ([0; 0; 1; 0], KEnumeratedListItem); ([0; 0; 1; 1], KEnumeratedListItem); ([0; 0; 2], KParagraph); ([0; 1], KEnumeratedListItem); ([0; 2], KEnumeratedListItem)] = true.
Proof. vm_compute. reflexivity. Qed.
(* test_field_lists.rs field_list_01 *)
Example field_list_01 : conforms false [
  [];
  lit ":field marker 1: Marker body";
  lit "  with a line indented relative to it";
  [];
  lit ":field marker 2: Body with";
  lit "    some more indentation";
  lit "    and a third line as well";
  [];
  lit "    * and";
  lit "    * why";
  lit "    * not";
  lit "    * a list";
  lit "    * as well";
  [];
  lit "An ending paragraph...";
  []] [([0], KFieldList); ([0; 0], KFieldListItem); ([0; 0; 0], KParagraph); ([0; 1], KFieldListItem); ([0; 1; 0], KParagraph); ([0; 1; 1], KBulletList)] = true.
Proof. vm_compute. reflexivity. Qed.
(* test_field_lists.rs field_list_02 *)
Example field_list_02 : conforms false [
  [];
  lit ":field marker 1: Marker body";
  lit "and a line with too little indentation";
  [];
  [];
  lit "An ending paragraph...";
  []] [([0], KFieldList); ([1], KParagraph); ([2], KParagraph)] = true.
Proof. vm_compute. reflexivity. Qed.
(* test_field_lists.rs field_list_03 *)
Example field_list_03 : conforms false [
  [];
  lit ":Date: 2001-08-16";
  lit ":Version: 1";
  lit ":Authors: - Me";
  lit "          - Myself";
  lit "          - I";
  lit ":Indentation: Since the field marker may be quite long, the second";
  lit "    and subsequent lines of the field body do not have to line up";
  lit "    with the first line, but they must be indented relative to the";
  lit "    field name marker, and they must line up with each other.";
  lit ":Parameter i: integer";
  []] [([0], KFieldList); ([0; 0], KFieldListItem); ([0; 0; 0], KParagraph); ([0; 1], KFieldListItem); ([0; 1; 0], KParagraph); ([0; 2], KFieldListItem); ([0; 2; 0], KBulletList); ([0; 3], KFieldListItem); ([0; 3; 0], KParagraph); ([0; 4], KFieldListItem); ([0; 4; 0], KParagraph)] = true.
Proof. vm_compute. reflexivity. Qed.
(* test_hyperlink_targets.rs footnote_01 *)
Example footnote_01 : conforms false [
  [];
  lit ".. [1] Here is a paragraph";
  lit "    with body indent.";
  [];
  lit "    * Bullet list inside foonote";
  []] [([0], KFootnote); ([0; 0], KParagraph); ([0; 1], KBulletList)] = true.
Proof. vm_compute. reflexivity. Qed.
(* test_hyperlink_targets.rs footnote_02 *)
Example footnote_02 : conforms false [
  [];
  lit ".. [1] Here is a paragraph";
  [];
  lit ".. [1] Another footnote with the same label (and target).";
  lit "        The duplicate label should generate a warning.";
  []] [([0], KFootnote); ([0; 0], KParagraph); ([1], KFootnote); ([1; 0], KParagraph)] = true.
Proof. vm_compute. reflexivity. Qed.
(* test_hyperlink_targets.rs footnote_03 *)
Example footnote_03 : conforms false [
  [];
  lit ".. [*] 1";
  lit ".. [*] 2";
  lit ".. [*] 3";
  lit ".. [*] 4";
  lit ".. [*] 5";
  lit ".. [*] 6";
  lit ".. [*] 7";
  lit ".. [*] 8";
  lit ".. [*] 9";
  lit ".. [*] 10";
  lit ".. [*] 11";
  lit ".. [*] 12";
  lit ".. [*] 13";
  lit ".. [*] 14";
  lit ".. [*] 15";
  lit ".. [*] 16";
  lit ".. [*] 17";
  lit ".. [*] 18";
  lit ".. [*] 19";
  lit ".. [*] 20";
  lit ".. [*] 21";
  lit ".. [*] 22";
  lit ".. [*] 23";
  lit ".. [*] 24";
  lit ".. [*] 25";
  lit ".. [*] 26";
  lit ".. [*] 27";
  lit ".. [*] 28";
  lit ".. [*] 29";
  []] [([0], KFootnote); ([2], KFootnote); ([10], KFootnote); ([12], KFootnote); ([20], KFootnote); ([28], KFootnote)] = true.
Proof. vm_compute. reflexivity. Qed.
(* test_hyperlink_targets.rs footnote_04 *)
Example footnote_04 : conforms false [
  [];
  lit ".. [2] 1";
  lit ".. [#test-with-mixed] 2";
  lit ".. [#] 3";
  lit ".. [#second] 4";
  lit ".. [#] 5";
  []] [([0], KFootnote)] = true.
Proof. vm_compute. reflexivity. Qed.
(* test_hyperlink_targets.rs footnote_05 *)
Example footnote_05 : conforms false [
  [];
  lit ".. [2] 1";
  lit ".. [#test-with-mixed] 2";
  lit ".. [*] .. [#nested] 4";
  lit ".. [*] 5";
  lit ".. [2] 5";
  []] [] = true.
Proof. vm_compute. reflexivity. Qed.
(* test_hyperlink_targets.rs citation_01 *)
Example citation_01 : conforms false [
  [];
  lit ".. [CIT2005] Citation";
  []] [] = true.
Proof. vm_compute. reflexivity. Qed.
(* test_hyperlink_targets.rs citation_02 *)
Example citation_02 : conforms false [
  [];
  lit ".. [one] aaa";
  lit "    .. [two] This line is a part of";
  lit "    the paragraph started on previous line";
  lit "       .. [three] This is a citation inside a block quote";
  []] [] = true.
Proof. vm_compute. reflexivity. Qed.
(* test_hyperlink_targets.rs hyperlink_target_01 *)
Example hyperlink_target_01 : conforms false [
  [];
  lit ".. _target1:";
  lit ".. _target2:";
  [];
  lit "Paragraph here. Please give me the labels ""target1"" and ""target2"".";
  []] [] = true.
Proof. vm_compute. reflexivity. Qed.
(* test_hyperlink_targets.rs hyperlink_target_02 *)
Example hyperlink_target_02 : conforms false [
  [];
  lit "* This here is a bulleted list";
  [];
  lit "  .. _internal-target-referencing-below-item:";
  [];
  lit "  .. _another-target-referencing-below-item:";
  [];
  lit "* The above internal targets that belong to the";
  lit "  previous list item should reference this item.";
  []] [] = true.
Proof. vm_compute. reflexivity. Qed.
(* test_hyperlink_targets.rs hyperlink_target_03 *)
Example hyperlink_target_03 : conforms false [
  [];
  lit ".. _an-external-hyperlink: https://www.address.fi//";
  [];
  lit ".. _indirect_hyperlink: an-external-hyperlink_";
  [];
  []] [([0], KExternalHyperlinkTarget); ([1], KIndirectHyperlinkTarget)] = true.
Proof. vm_compute. reflexivity. Qed.
(* test_hyperlink_targets.rs hyperlink_target_04 *)
Example hyperlink_target_04 : conforms false [
  [];
  lit ".. __: https://www.address.fi//";
  [];
  lit ".. __: anon-target-ref__";
  []] [([0], KExternalHyperlinkTarget); ([1], KIndirectHyperlinkTarget)] = true.
Proof. vm_compute. reflexivity. Qed.
(* test_hyperlink_targets.rs hyperlink_target_05 *)
Example hyperlink_target_05 : conforms false [
  [];
  lit ".. _target label:";
  [];
  lit "A Section title";
  lit "===============";
  [];
  lit ".. _Target  for footnote:";
  lit ".. _AnD AnotherOne:";
  [];
  lit ".. [1] Here is a paragraph";
  lit "  with body indent.";
  [];
  lit "  * Bullet list inside foonote";
  []] [([0], KSection); ([0; 0], KFootnote)] = true.
Proof. vm_compute. reflexivity. Qed.
(* test_images.rs image_01 *)
Example image_01 : conforms false [
  [];
  lit ".. image:: this/is/an/image/uri.png";
  lit "  :class: html class attributes";
  lit "  :name: here is a reference name";
  lit "  :unrecognized: This option is discarded by the parsing function.";
  lit "  :alt: This is alternate text for the visually impaired";
  lit "  :height: 200(px|ex|em|pt|...)";
  lit "  :width: 100(px|ex|em|pt|...)";
  lit "  :scale: 50%";
  lit "  :align: left";
  lit "  :target: turns image into link";
  [];
  lit "- This bullet list";
  lit "- is not a part of the above image.";
  []] [([0], KImage); ([1], KBulletList)] = true.
Proof. vm_compute. reflexivity. Qed.
(* test_images.rs figure_01 *)
Example figure_01 : conforms true [
  [];
  lit ".. figure:: this/is/an/image/uri.png";
  lit "  :class: html class attributes";
  lit "  :name: here is a reference name";
  lit "  :unrecognized: This option is discarded by the parsing function.";
  lit "  :alt: This is alternate text for the visually impaired";
  lit "  :height: 200(px|ex|em|pt|...)";
  lit "  :width: 100(px|ex|em|pt|...)";
  lit "  :scale: 50%?";
  lit "  :align: left";
  lit "  :target: turns image into link";
  [];
  lit "  This first paragraph should be transformed into";
  lit "  a figure caption node inside the figure parser.";
  [];
  lit "  This paragraph is already a part of the figure legend.";
  [];
  lit "  - As is";
  lit "  - This bullet list";
  []] [([0], KFigure); ([0; 0], KImage); ([0; 1], KCaption); ([0; 2], KParagraph); ([0; 3], KBulletList)] = true.
Proof. vm_compute. reflexivity. Qed.
(* test_images.rs figure_02 *)
Example figure_02 : conforms false [
  [];
  lit "* This bullet list item contains a figure.";
  [];
  lit "  .. figure:: this/is/an/image/uri.png";
  [];
  lit "    ..";
  lit "      This comment will prevent a caption from being formed.";
  lit "      A comment can be empty.";
  [];
  lit "    This paragraph is already a part of the figure legend.";
  [];
  lit "    - As is";
  lit "    - This bullet list";
  [];
  lit "Back to no indentation.";
  []] [([0], KBulletList); ([0; 0], KBulletListItem); ([0; 0; 0], KParagraph); ([0; 0; 1], KFigure); ([0; 0; 1; 0], KImage); ([0; 0; 1; 1], KComment); ([0; 0; 1; 2], KParagraph); ([0; 0; 1; 3], KBulletList); ([0; 0; 1; 3; 0], KBulletListItem); ([0; 0; 1; 3; 1], KBulletListItem); ([1], KParagraph)] = true.
Proof. vm_compute. reflexivity. Qed.
(* test_images.rs figure_03 *)
Example figure_03 : conforms false [
  [];
  lit ".. figure:: this/is/an/image/uri.png";
  [];
  lit "  .. figure:: this/is/another/image/uri.png";
  [];
  lit "    Caption paragraph: A figure inside a figure legend.";
  [];
  lit "Back to no indentation.";
  []] [([0], KFigure); ([0; 1], KFigure); ([0; 1; 1], KParagraph); ([1], KParagraph)] = true.
Proof. vm_compute. reflexivity. Qed.
(* test_list_tables.rs list_table_01 *)
Example list_table_01 : conforms false [
  [];
  lit ".. list-table:: A title";
  lit "   :widths: 2 2 2";
  lit "   :width: 50 %";
  lit "   :header-rows: 2";
  lit "   :stub-columns: 1";
  lit "   :align: center";
  [];
  lit "   * - This is a cell in a table column";
  lit "     - columns are represented by nested inner bullet list items";
  [];
  lit "   * - This is the first column of another row";
  lit "     - This is the second column.";
  [];
  []] [([0], KListTable); ([0; 0], KBulletList); ([0; 0; 0], KBulletListItem); ([0; 0; 0; 0], KBulletList); ([0; 0; 0; 0; 0], KBulletListItem); ([0; 0; 1], KBulletListItem)] = true.
Proof. vm_compute. reflexivity. Qed.
(* test_literal_blocks.rs literal_block_01 *)
Example literal_block_01 : conforms false [
  [];
  lit "::";
  [];
  lit "> This is a literal block of text,";
  lit "> indicated by the ""::"" at the end of last paragraph.";
  []] [([0], KLiteralBlock)] = true.
Proof. vm_compute. reflexivity. Qed.
(* test_literal_blocks.rs literal_block_02 *)
Example literal_block_02 : conforms false [
  [];
  lit "::";
  [];
  lit "  An indented literal block with";
  lit "  multiple lines";
  [];
  lit "    Even more indent here.";
  [];
  lit "      And even more...";
  lit "  Return to original level of indentation";
  [];
  lit "This line ends the literal block, as its indentation is on the same level";
  lit "as that of the literal block indicator ""::"".";
  []] [([0], KLiteralBlock)] = true.
Proof. vm_compute. reflexivity. Qed.
(* test_literal_blocks.rs code_01 *)
Example code_01 : conforms false [
  [];
  lit ".. code:: python";
  lit "  :number lines: 3";
  lit "  :name: reference-name";
  lit "  :class: some-class and-another-one";
  [];
  lit "  def shout(text):";
  lit "    print(text + ""!"")";
  [];
  lit "  def main():";
  lit "    text = ""abcde""";
  lit "    shout(text)";
  [];
  lit "This paragraph ends the literal block."] [([0], KCode)] = true.
Proof. vm_compute. reflexivity. Qed.
(* test_math_blocks.rs math_block_01 *)
Example math_block_01 : conforms false [
  [];
  lit ".. math::";
  lit "  :name: name";
  lit "  :class: class";
  [];
  lit "  \alpha + \beta = \gamma";
  []] [([0], KMathBlock)] = true.
Proof. vm_compute. reflexivity. Qed.
(* test_math_blocks.rs math_block_02 *)
Example math_block_02 : conforms false [
  [];
  lit ".. math::";
  lit "  :name: name";
  lit "  :class: class";
  [];
  lit "  (1) \alpha + \beta = \gamma";
  lit "  \delta";
  [];
  lit "  Another block with math (printed as ""Anotherblockwithmath"" in LaTeX)";
  []] [([0], KMathBlock); ([1], KMathBlock)] = true.
Proof. vm_compute. reflexivity. Qed.
(* test_mixed_structures.rs mixed_nested_lists_01 *)
Example mixed_nested_lists_01 : conforms false [
  [];
  lit "(i) * List item 1";
  lit "      of a nested bullet list within";
  lit "      an enumerated list...";
  [];
  lit "    * Nested list item 2";
  [];
  lit "      b) Nested enuemrated list in a nested bullet list";
  [];
  lit "    Second paragraph of list item i.";
  [];
  lit "(ii) List item 2 of the parent list.";
  []] [([0], KEnumeratedList); ([0; 0], KEnumeratedListItem); ([0; 0; 0], KBulletList); ([0; 0; 0; 0], KBulletListItem); ([0; 0; 0; 1], KBulletListItem); ([0; 0; 0; 1; 1], KEnumeratedList); ([0; 0; 1], KParagraph); ([0; 1], KEnumeratedListItem)] = true.
Proof. vm_compute. reflexivity. Qed.
(* test_sections_and_transitions.rs transition_01 *)
Example transition_01 : conforms false [
  [];
  [];
  lit "Below is a transition.";
  [];
  lit "=======";
  [];
  lit "The line is at least 4 symbols long.";
  []] [([1], KTransition)] = true.
Proof. vm_compute. reflexivity. Qed.
(* test_sections_and_transitions.rs over_under_section_01 *)
Example over_under_section_01 : conforms false [
  [];
  [];
  lit "Below is an over- and underlined section title.";
  [];
  lit "=======================================";
  lit " This is Spart.. I mean a section title";
  lit "=======================================";
  [];
  lit "This paragraph belongs to the section started by the above title,";
  lit "not to the document root.";
  []] [([1], KSection)] = true.
Proof. vm_compute. reflexivity. Qed.
(* test_sections_and_transitions.rs mixed_sections_01 *)
Example mixed_sections_01 : conforms false [
  [];
  lit "=======================";
  lit " Level 1 Section Title";
  lit "=======================";
  [];
  lit "-----------------------";
  lit " Level 2 Section Title";
  lit "-----------------------";
  [];
  lit "Level 3 Section Title";
  lit "=====================";
  [];
  lit "Level 4 Section Title";
  lit "---------------------";
  [];
  lit "Level 5 Section Title";
  lit "`````````````````````";
  [];
  lit "---------------------";
  lit "Level 2 Section Title";
  lit "---------------------";
  [];
  lit "Level 6 Section Title";
  lit "'''''''''''''''''''''";
  [];
  lit "Level 7 Section Title";
  lit ".....................";
  [];
  lit "Level 8 Section Title";
  lit "~~~~~~~~~~~~~~~~~~~~~";
  [];
  lit "Level 9 Section Title";
  lit "*********************";
  [];
  lit "Level 10 Section Title";
  lit "++++++++++++++++++++++";
  [];
  lit "Level 11 Section Title";
  lit "^^^^^^^^^^^^^^^^^^^^^^";
  [];
  lit "======================";
  lit "Level 1 Section Title";
  lit "======================";
  []] [([0], KSection); ([0; 0], KSection); ([0; 0; 0], KSection); ([0; 0; 0; 0], KSection); ([0; 0; 0; 0; 0], KSection); ([0; 1], KSection); ([0; 1; 0], KSection); ([0; 1; 0; 0], KSection); ([0; 1; 0; 0; 0], KSection); ([0; 1; 0; 0; 0; 0], KSection); ([0; 1; 0; 0; 0; 0; 0], KSection); ([0; 1; 0; 0; 0; 0; 0; 0], KSection); ([1], KSection)] = true.
Proof. vm_compute. reflexivity. Qed.
(* test_sections_and_transitions.rs transition_after_admonition *)
Example transition_after_admonition : conforms false [
  [];
  lit ".. ATTENTION::";
  [];
  lit "  Seuraavan teht" ++ [228%N] ++ lit "v" ++ [228%N] ++ lit "n tekeminen (eli ``.gitignore``-tiedoston luominen)";
  lit "  on eritt" ++ [228%N] ++ lit "inen suositeltavaa, koska se helpottaa ty" ++ [246%N] ++ lit "skentely" ++ [228%N] ++ lit "si";
  lit "  t" ++ [228%N] ++ lit "ll" ++ [228%N] ++ lit " kurssilla.";
  lit "  Aivan v" ++ [228%N] ++ lit "ltt" ++ [228%N] ++ lit "m" ++ [228%N] ++ lit "t" ++ [246%N] ++ lit "nt" ++ [228%N] ++ lit " se ei ole, eik" ++ [228%N] ++ lit " sit" ++ [228%N] ++ lit " tarvitse tehd" ++ [228%N] ++ lit " juuri nyt.";
  lit "  Voit palata t" ++ [228%N] ++ lit "h" ++ [228%N] ++ lit "n teht" ++ [228%N] ++ lit "v" ++ [228%N] ++ [228%N] ++ lit "n my" ++ [246%N] ++ lit "hemmin, kun huomaat ``.gitignore``-tiedoston";
  lit "  tarpeelliseksi.";
  [];
  lit "  <Content>";
  [];
  lit "=======";
  [];
  lit "A paragraph after transition.";
  []] [([1], KTransition); ([2], KParagraph); ([0], KAdmonition); ([0; 0], KParagraph)] = true.
Proof. vm_compute. reflexivity. Qed.
(* test_sphinx_only.rs sphinx_only_01 *)
Example sphinx_only_01 : conforms false [
  [];
  lit ".. only:: html and (latex or draft)";
  [];
  lit "  This is a paragraph that is included in the output";
  lit "  only if the directive argument is ""true"".";
  [];
  lit "  * As is this bullet list...";
  lit "  * ... with a second item";
  []] [([0], KSphinxOnly); ([0; 0], KParagraph); ([0; 1], KBulletList)] = true.
Proof. vm_compute. reflexivity. Qed.
(* test_unknown_directives.rs unknown_directive_01 *)
Example unknown_directive_01 : conforms false [
  [];
  lit ".. some-unknown-dirctive:: some argument here...";
  lit "  :option1: something";
  lit "  :option2: something else";
  [];
  lit "A paragraph.";
  [];
  []] [([0], KUnknownDirective); ([1], KParagraph)] = true.
Proof. vm_compute. reflexivity. Qed.
(* test_unknown_directives.rs unknown_directive_02 *)
Example unknown_directive_02 : conforms false [
  [];
  lit "Below is an unknown directive. It will be parsed as an unknown directive.";
  [];
  lit ".. unknown:: argument with";
  lit "  multiple lines";
  lit "  :option1: a";
  lit "  :option2: bunch";
  lit "  :option3: the next option will override this one";
  lit "  :option3: here";
  lit "  :option5: something else entirely";
  [];
  lit "  Paragraph inside unknown directive";
  [];
  lit "  - And a bullet list with just one item";
  [];
  lit "This is no longer a part of the above literal block inside a block quote."] [([0], KParagraph); ([1], KUnknownDirective); ([1; 0], KParagraph); ([1; 1], KBulletList); ([2], KParagraph)] = true.
Proof. vm_compute. reflexivity. Qed.
(* test_unknown_directives.rs unknown_directive_no_argument_nor_options *)
Example unknown_directive_no_argument_nor_options : conforms false [
  [];
  lit ".. unknown::";
  [];
  lit "  A paragraph.";
  []] [([0], KUnknownDirective); ([0; 0], KParagraph)] = true.
Proof. vm_compute. reflexivity. Qed.
(* test_unknown_directives.rs unknown_directive_no_argument_but_options *)
Example unknown_directive_no_argument_but_options : conforms false [
  [];
  lit ".. unknown::";
  lit "  :option: 1";
  lit "  :or: 2";
  lit "  :three: 3";
  [];
  lit "  A paragraph.";
  []] [([0], KUnknownDirective); ([0; 0], KParagraph)] = true.
Proof. vm_compute. reflexivity. Qed.
(* test_unknown_directives.rs unknown_directive_no_options_but_argument *)
Example unknown_directive_no_options_but_argument : conforms false [
  [];
  lit ".. unknown:: argument";
  lit "  on multiple lines";
  [];
  lit "  Content paragraph.";
  []] [([0], KUnknownDirective); ([0; 0], KParagraph)] = true.
Proof. vm_compute. reflexivity. Qed.
