(* Utf8Latex.v -- model of /repo/src/utf8_to_latex.rs.  The math table is
   generated from the `map.insert` lines of the source, in their order. *)
From Verif Require Import Base.
Local Open Scope N_scope.

(* A HashMap filled by successive `insert`s: the last insert of a key wins. *)
Fixpoint last_insert (m : list (N * string)) (c : char) : option str :=
  match m with
  | [] => None
  | (k, v) :: t =>
      match last_insert t c with
      | Some r => Some r
      | None => if N.eqb k c then Some (lit v) else None
      end
  end.

(* utf8_to_latex.rs 125-535: UTF8_MATH_TO_LATEX_MAP *)
Definition math_map : list (N * string) := [
  (35, "\#"%string);
  (36, "\$"%string);
  (37, "\%"%string);
  (126, "\sim"%string);
  (162, "\cent"%string);
  (163, "\pounds"%string);
  (165, "\yen"%string);
  (168, "\spddot"%string);
  (172, "\neg"%string);
  (177, "\pm"%string);
  (181, "\mathrm{\mu}"%string);
  (183, "\cdot"%string);
  (215, "\times"%string);
  (247, "\eth"%string);
  (593, "\alpha"%string);
  (768, "\grave"%string);
  (769, "\acute"%string);
  (770, "\hat"%string);
  (771, "\tilde"%string);
  (772, "\bar"%string);
  (773, "\overline"%string);
  (774, "\breve"%string);
  (775, "\dot"%string);
  (776, "\ddot"%string);
  (778, "\mathring"%string);
  (780, "\check"%string);
  (816, "\utilde"%string);
  (817, "\underbar"%string);
  (818, "\underline"%string);
  (824, "\not"%string);
  (913, "A"%string);
  (914, "B"%string);
  (915, "\Gamma"%string);
  (916, "\Delta"%string);
  (917, "E"%string);
  (918, "Z"%string);
  (919, "H"%string);
  (920, "\Theta"%string);
  (921, "I"%string);
  (922, "K"%string);
  (923, "\Lambda"%string);
  (924, "M"%string);
  (925, "N"%string);
  (926, "\Xi"%string);
  (927, "O"%string);
  (928, "\Pi"%string);
  (929, "P"%string);
  (931, "\Sigma"%string);
  (932, "T"%string);
  (933, "\Upsilon"%string);
  (934, "\Phi"%string);
  (935, "X"%string);
  (936, "\Psi"%string);
  (936, "\Omega"%string);
  (945, "\alpha"%string);
  (946, "\beta"%string);
  (947, "\gamma"%string);
  (948, "\delta"%string);
  (949, "\varepsilon"%string);
  (950, "\zeta"%string);
  (951, "\eta"%string);
  (952, "\theta"%string);
  (953, "\iota"%string);
  (954, "\kappa"%string);
  (955, "\lambda"%string);
  (956, "\mu"%string);
  (957, "\nu"%string);
  (958, "\xi"%string);
  (959, "o"%string);
  (960, "\pi"%string);
  (961, "\rho"%string);
  (962, "\varsigma"%string);
  (963, "\sigma"%string);
  (964, "\tau"%string);
  (965, "\upsilon"%string);
  (966, "\varphi"%string);
  (967, "\chi"%string);
  (968, "\psi"%string);
  (969, "\omega"%string);
  (976, "\varbeta"%string);
  (977, "\vartheta"%string);
  (978, "\Upsilon"%string);
  (981, "\phi"%string);
  (982, "\varpi"%string);
  (984, "\Qoppa"%string);
  (985, "\qoppa"%string);
  (986, "\Stigma"%string);
  (987, "\stigma"%string);
  (988, "\Digamma"%string);
  (989, "\digamma"%string);
  (990, "\Koppa"%string);
  (991, "\koppa"%string);
  (992, "\Sampi"%string);
  (993, "\sampi"%string);
  (1008, "\varkappa"%string);
  (1009, "\varrho"%string);
  (1012, "\Theta"%string);
  (1013, "\epsilon"%string);
  (1014, "\backepsilon"%string);
  (8192, "\ "%string);
  (8193, "\quad"%string);
  (8194, "\qquad"%string);
  (8195, "\ "%string);
  (8196, "\ "%string);
  (8197, "\ "%string);
  (8198, "\ "%string);
  (8199, "\ "%string);
  (8200, "\ "%string);
  (8201, "\ "%string);
  (8202, "\ "%string);
  (8202, "\ "%string);
  (8208, "-"%string);
  (8210, "-"%string);
  (8211, "-"%string);
  (8212, "-"%string);
  (8213, "-"%string);
  (8214, "\Vert"%string);
  (8224, "\dagger"%string);
  (8225, "\\ddagger"%string);
  (8226, "\bullet"%string);
  (8230, "\ldots"%string);
  (8242, "\prime"%string);
  (8243, "\second"%string);
  (8244, "\third"%string);
  (8245, "\backprime"%string);
  (8252, "!!"%string);
  (8256, "\cat"%string);
  (8260, "/"%string);
  (8263, "??"%string);
  (8274, "\:"%string);
  (8314, "^{+}"%string);
  (8315, "^{-}"%string);
  (8316, "^{=}"%string);
  (8317, "^{(}"%string);
  (8318, "^{)}"%string);
  (8330, "^{+}"%string);
  (8331, "^{-}"%string);
  (8332, "^{=}"%string);
  (8333, "^{(}"%string);
  (8334, "^{)}"%string);
  (8450, "\mathbb{C}"%string);
  (8455, "\Euler"%string);
  (8458, "\mathcal{g}"%string);
  (8459, "\mathcal{H}"%string);
  (8460, "\mathfrak{H}"%string);
  (8461, "\mathbb{H}"%string);
  (8462, "h"%string);
  (8463, "\hslash"%string);
  (8464, "\mathcal{I}"%string);
  (8465, "\Im"%string);
  (8466, "\mathcal{L}"%string);
  (8467, "\ell"%string);
  (8469, "\mathbb{N}"%string);
  (8472, "\wp"%string);
  (8473, "\mathbb{P}"%string);
  (8474, "\mathbb{Q}"%string);
  (8475, "\mathcal{R}"%string);
  (8476, "\Re"%string);
  (8477, "\mathbb{R}"%string);
  (8484, "\mathbb{Z}"%string);
  (8486, "\Omega"%string);
  (8487, "\mho"%string);
  (8488, "\mathfrak{Z}"%string);
  (8491, "\Angstroem"%string);
  (8492, "\mathcal{B}"%string);
  (8493, "\mathfrak{C}"%string);
  (8495, "\mathcal{e}"%string);
  (8496, "\mathcal{E}"%string);
  (8497, "\mathcal{F}"%string);
  (8498, "\Finv"%string);
  (8499, "\mathcal{M}"%string);
  (8500, "\mathcal{o}"%string);
  (8501, "\aleph"%string);
  (8502, "\beth"%string);
  (8503, "\gimel"%string);
  (8504, "\daleth"%string);
  (8508, "\mathbb{pi}"%string);
  (8509, "\mathbb{gamma}"%string);
  (8510, "\mathbb{Gamma}"%string);
  (8511, "\mathbb{Pi}"%string);
  (8512, "\mathbb{Sigma}"%string);
  (8516, "\Yup"%string);
  (8517, "\CapitalDifferentialD"%string);
  (8518, "\DifferentialD"%string);
  (8519, "\ExponentialE"%string);
  (8520, "\ComplexI"%string);
  (8521, "\ComplexJ"%string);
  (8523, "\invamp"%string);
  (8592, "\leftarrow"%string);
  (8593, "\uparrow"%string);
  (8594, "\rightarrow"%string);
  (8595, "\downarrow"%string);
  (8596, "\leftrightarrow"%string);
  (8597, "\nwwnarrow"%string);
  (8598, "\nearrow"%string);
  (8599, "\searrow"%string);
  (8600, "\swarrow"%string);
  (8601, "\nleftarrow"%string);
  (8602, "\nrightarrow"%string);
  (8606, "\twoheadleftarrow"%string);
  (8608, "\twoheadrightarrow"%string);
  (8610, "\leftarrowtail"%string);
  (8611, "\rightarrowtail"%string);
  (8612, "\mapsfrom"%string);
  (8613, "\MapsUp"%string);
  (8614, "\mapsto"%string);
  (8615, "\MapsDown"%string);
  (8617, "\heekleftarrow"%string);
  (8618, "\hookrightarrow"%string);
  (8619, "\looparrowleft"%string);
  (8620, "\looparrowright"%string);
  (8621, "\leftrightsquigarrow"%string);
  (8622, "\nleftrightarrow"%string);
  (8623, "\lightning"%string);
  (8630, "\curvearrowleft"%string);
  (8631, "\curvearrowright"%string);
  (8634, "\circlearrowleft"%string);
  (8635, "\circlearrowright"%string);
  (8636, "\leftharpoonup"%string);
  (8637, "\leftharpoondown"%string);
  (8638, "\upharpoonright"%string);
  (8639, "\upharpoonleft"%string);
  (8640, "\rightharpoonup"%string);
  (8641, "\rightharpoondown"%string);
  (8642, "\downharpoonright"%string);
  (8643, "\downharpoonleft"%string);
  (8644, "\rightleftarrows"%string);
  (8645, "\updownarrows"%string);
  (8646, "\leftrightarrows"%string);
  (8647, "\leftleftarrows"%string);
  (8648, "\upuparrows"%string);
  (8649, "\rightrightarrows"%string);
  (8650, "\downdownarrows"%string);
  (8651, "\leftrightharpoons"%string);
  (8652, "\rightleftharpoons"%string);
  (8653, "\nLeftarrow"%string);
  (8654, "\nLeftrightarrow"%string);
  (8655, "\nRightarrow"%string);
  (8655, "\nRightarrow"%string);
  (8656, "\Leftarrow"%string);
  (8657, "\Uparrow"%string);
  (8658, "\Rightarrow"%string);
  (8659, "\Downarrow"%string);
  (8660, "\Leftrightarrow"%string);
  (8661, "\Updownarrowarrow"%string);
  (8662, "\Nwarrow"%string);
  (8663, "\Searrow"%string);
  (8664, "\Swarrow"%string);
  (8666, "\Lleftarrow"%string);
  (8667, "\Rrightarrow"%string);
  (8668, "\leftsquigarrow"%string);
  (8669, "\rightsquigarrow"%string);
  (8693, "\downuparrows"%string);
  (8704, "\forall"%string);
  (8705, "\complement"%string);
  (8706, "\partial"%string);
  (8707, "\exists"%string);
  (8708, "\nexists"%string);
  (8709, "\varnothing"%string);
  (8710, "\Delta"%string);
  (8711, "\nabla"%string);
  (8712, "\in"%string);
  (8713, "\notin"%string);
  (8714, "\epsilon"%string);
  (8715, "\ni"%string);
  (8716, "\nni"%string);
  (8719, "\prod"%string);
  (8720, "\coprod"%string);
  (8721, "\sum"%string);
  (8722, "-"%string);
  (8723, "\mp"%string);
  (8724, "\dotplus"%string);
  (8725, "\slash"%string);
  (8726, "\smallsetminus"%string);
  (8727, "\ast"%string);
  (8728, "\circ"%string);
  (8729, "\bullet"%string);
  (8730, "\sqrt"%string);
  (8731, "\sqrt[3]"%string);
  (8732, "\sqrt[4]"%string);
  (8733, "\propto"%string);
  (8734, "\infty"%string);
  (8743, "\wedge"%string);
  (8744, "\vee"%string);
  (8745, "\cap"%string);
  (8746, "\cup"%string);
  (8747, "\int"%string);
  (8748, "\iint"%string);
  (8749, "\iiint"%string);
  (8750, "\oint"%string);
  (8751, "\oiint"%string);
  (8752, "\oiiint"%string);
  (8756, "\therefore"%string);
  (8757, "\because"%string);
  (8758, ":"%string);
  (8759, "\Proportion"%string);
  (8764, "\sim"%string);
  (8765, "\backsim"%string);
  (8769, "\nsim"%string);
  (8776, "\approx"%string);
  (8777, "\napprox"%string);
  (8788, "\coloneq"%string);
  (8789, "\eqcolon"%string);
  (8793, "\corresponds"%string);
  (8800, "\neq"%string);
  (8801, "\equiv"%string);
  (8802, "\nequiv"%string);
  (8804, "\leq"%string);
  (8805, "\geq"%string);
  (8804, "\ll"%string);
  (8804, "\gg"%string);
  (8814, "\nless"%string);
  (8815, "\ngtr"%string);
  (8816, "\nleq"%string);
  (8817, "\ngeq"%string);
  (8826, "\prec"%string);
  (8827, "\succ"%string);
  (8816, "\preccurlyeq"%string);
  (8816, "\succurlyeq"%string);
  (8816, "\precsim"%string);
  (8816, "\succsim"%string);
  (8816, "\nprec"%string);
  (8816, "\nsucc"%string);
  (8834, "\subset"%string);
  (8835, "\supset"%string);
  (8836, "\nsubset"%string);
  (8837, "\nsupset"%string);
  (8838, "\subseteq"%string);
  (8839, "\supseteq"%string);
  (8840, "\nsubseteq"%string);
  (8841, "\nsupseteq"%string);
  (8842, "\subsetneq"%string);
  (8843, "\supsetneq"%string);
  (8866, "\vdash"%string);
  (8867, "\dashv"%string);
  (8868, "\top"%string);
  (8869, "\bot"%string);
  (8871, "\models"%string);
  (8872, "\vDash"%string);
  (8896, "\bigwedge"%string);
  (8897, "\bigvee"%string);
  (8898, "\bigcap"%string);
  (8899, "\bigcup"%string);
  (8900, "\diamond"%string);
  (8901, "\cdot"%string);
  (8902, "\star"%string);
  (8910, "\curlyvee"%string);
  (8911, "\curlywedge"%string)].

(* utf8_to_latex.rs 540-558: UTF8_TEXT_TO_LATEX_MAP *)
Definition text_map : list (N * string) := [
  (ch "\", "\textbackslash"%string);
  (ch "^", "\textasciicircum"%string);
  (ch "_", "\_"%string);
  (ch "~", "\~"%string);
  (ch "$", "\$"%string);
  (ch "{", "\{"%string);
  (ch "}", "\}"%string);
  (ch "#", "\#"%string);
  (ch "&", "\&"%string);
  (ch "%", "\%"%string)].

(* utf8_to_latex.rs 16-29: unicode_math_to_latex *)
Fixpoint unicode_math_to_latex (s : str) : str :=
  match s with
  | [] => []
  | c :: t =>
      match last_insert math_map c with
      | Some l => l
      | None => [c]
      end ++ unicode_math_to_latex t
  end.

(* utf8_to_latex.rs 54-64: space_based_on_next_char, from the rest of the
   text *)
Definition space_before (rest : str) : str :=
  match rest with
  | c :: _ =>
      if is_whitespace c || N.eqb c (ch "\") || negb (is_ascii_alpha c) then [] else [32]
  | [] => []
  end.

(* utf8_to_latex.rs 66-70: one turn of the loop, for the character c1 and the
   rest of the text *)
Definition text_piece (c1 : char) (rest : str) : str :=
  match last_insert text_map c1 with
  | Some l => l ++ space_before rest
  | None => [c1]
  end.

(* utf8_to_latex.rs 37-72: unicode_text_to_latex *)
Fixpoint unicode_text_to_latex (s : str) : str :=
  match s with
  | [] => []
  | c1 :: t =>
      if N.eqb c1 (ch "\")
      then match t with
           | c2 :: t' => text_piece c2 t' ++ unicode_text_to_latex t'
           | [] => text_piece c1 []
           end
      else text_piece c1 t ++ unicode_text_to_latex t
  end.
