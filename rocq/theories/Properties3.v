(* Properties3.v -- the theorems for C30-C32 and C46 (character conversion). *)
From Verif Require Import Base Utf8Latex TexSpec TextProofs Utf8Proofs.
Local Open Scope N_scope.

(* ===== C30 text is escaped so LaTeX reads it as text ===== *)
(* every character of the text is written, in order, as itself or as its escape
   sequence, with at most a space after the escape sequence; no special
   character is written as itself *)
Theorem C30_only_escapes s : exists pieces,
  unicode_text_to_latex s = concat pieces /\ Forall2 written_as (plain_text s) pieces.
Proof. exact (text_pieces s). Qed.
Theorem C30_special_is_escaped c : In c (lit "#$%&~_^{}\") -> ~ written_as c [c].
Proof.
  intros H W.
  assert (E : exists e, escape_of c = Some e /\ (2 <= List.length e)%nat).
  { cbn [lit In] in H.
    repeat (destruct H as [<-|H]; [eexists; split; [vm_compute; reflexivity|vm_compute; repeat constructor]|]).
    contradiction. }
  destruct E as [e [E L]]. remember [c] as p eqn:P. destruct W as [x Ex|x e' Ex|x e' Ex]; subst.
  - congruence.
  - rewrite E in Ex. injection Ex as ->. cbn in L. lia.
  - rewrite E in Ex. injection Ex as ->. apply (f_equal (@List.length N)) in P. rewrite app_length in P. cbn in P. lia.
Qed.
(* LaTeX reads the text back, provided: no ~; none of # $ % & _ { } directly
   before a letter; no backslash or ^ directly before white space or a further
   escape *)
Theorem C30_reads_back_partial s :
  (forall c next, In (c, next) (unescaped s) ->
     c <> ch "~" /\
     (In c (lit "#$%&_{}") -> forall n r, next = n :: r -> is_ascii_alpha n = false) /\
     (In c (lit "\^") -> forall n r, next = n :: r -> is_whitespace n = false /\ n <> ch "\")) ->
  tex_reads (unicode_text_to_latex s) = Some (plain_text s).
Proof.
  intro H. apply text_reads_back, Forall_forall. intros [c next] I. destruct (H c next I) as [A [B C]].
  unfold reads_back. destruct next as [|n r]; [exact A|]. split; [exact A|]. split.
  - intro J. exact (B J n r eq_refl).
  - intro J. exact (C J n r eq_refl).
Qed.
Example C30_ex : tex_reads (unicode_text_to_latex (lit "100% of {1} & \\y \* ^2")) = Some (lit "100% of {1} & \y * ^2")
  /\ unicode_text_to_latex (lit "100% \\y") = lit "100\% \textbackslash y".
Proof. vm_compute. split; reflexivity. Qed.
Example C30_ex_hyp : tex_reads (unicode_text_to_latex (lit "5 % \\x")) = Some (plain_text (lit "5 % \\x")).
Proof.
  apply C30_reads_back_partial. vm_compute unescaped. intros c next H. cbn [In] in H.
  repeat (destruct H as [[= <- <-]|H]; [split; [discriminate|split; intros J n r [= <- <-]]|]);
    try contradiction; try reflexivity.
  all: try (split; [reflexivity|discriminate]).
  all: exfalso; cbn in J; repeat destruct J as [J|J]; try discriminate J; contradiction.
Qed.
(* In general LaTeX does not read the text back: a_b is typeset as a_ b, the
   escape for ~ is an accent, an escaped letter after an escaped backslash
   becomes part of the command, and different texts are written alike. *)
Theorem C30_refuted :
  tex_reads (unicode_text_to_latex (lit "a_b")) = Some (lit "a_ b") /\
  tex_reads (unicode_text_to_latex (lit "~")) = None /\
  unicode_text_to_latex (lit "\\\a") = lit "\textbackslasha" /\
  (exists a b, plain_text a <> plain_text b /\ unicode_text_to_latex a = unicode_text_to_latex b).
Proof.
  split; [vm_compute; reflexivity|]. split; [vm_compute; reflexivity|]. split; [vm_compute; reflexivity|].
  exists (lit "a_b"), (lit "a_ b"). split; [vm_compute; discriminate|vm_compute; reflexivity].
Qed.

(* ===== C31 math conversion is character by character ===== *)
Theorem C31_concatenation a b :
  unicode_math_to_latex (a ++ b) = unicode_math_to_latex a ++ unicode_math_to_latex b.
Proof. exact (math_app a b). Qed.
Theorem C31_each_character s : exists pieces,
  unicode_math_to_latex s = concat pieces /\
  Forall2 (fun c p => p = [c] \/
             p <> [] /\ Forall (fun x => x < 128) p /\ (In c (lit "#$%~") \/ 128 <= c)) s pieces.
Proof. exact (math_pieces s). Qed.
Theorem C31_ascii_unchanged s :
  Forall (fun c => c < 128 /\ ~ In c (lit "#$%~")) s -> unicode_math_to_latex s = s.
Proof. exact (math_ascii s). Qed.
Theorem C31_greek : Forall (fun cn => unicode_math_to_latex [fst cn] = lit "\" ++ lit (snd cn)) greek.
Proof. repeat (constructor; [vm_compute; reflexivity|]). constructor. Qed.
(* braces stay as balanced as they were *)
Theorem C31_braces s d : raw_depth (unicode_math_to_latex s) d = raw_depth s d.
Proof. exact (math_braces s d). Qed.
Example C31_ex : unicode_math_to_latex (lit "x^{2} + " ++ [0x3B1] ++ lit "_1 & 50%") = lit "x^{2} + \alpha_1 & 50\%"
  /\ raw_depth (lit "x^{2}") 0 = Some 0%nat /\ raw_depth (lit "x}{") 0 = None.
Proof. vm_compute. split; [|split]; reflexivity. Qed.
Example C31_ex_hyp : unicode_math_to_latex (lit "\frac{a}{b}") = lit "\frac{a}{b}".
Proof. apply C31_ascii_unchanged. repeat (constructor; [split; [reflexivity|vm_compute; intuition discriminate]|]). constructor. Qed.

(* ===== C32 different math symbols stay distinguishable ===== *)
(* characters outside the listed families of look-alikes are written
   differently from every other character *)
Theorem C32_distinct_partial c d : c <> d -> ~ In c collisions ->
  unicode_math_to_latex [c] <> unicode_math_to_latex [d].
Proof. intros N H E. rewrite !math_one in E. apply H. exact (proj1 (math_distinct c d N E)). Qed.
(* a character's command is read as such if what follows it is written with
   neither a letter nor a blank first *)
Theorem C32_not_glued_partial c s : c <> ch "\" ->
  (forall n r, unicode_math_to_latex s = n :: r -> is_ascii_alpha n = false /\ tex_blank n = false) ->
  tokens Plain (unicode_math_to_latex (c :: s)) =
  tokens Plain (unicode_math_to_latex [c]) ++ tokens Plain (unicode_math_to_latex s).
Proof.
  intros Hc H. rewrite math_one, math_cons. apply tokens_split; [apply math1_mode; exact Hc|].
  unfold head_ok. destruct (unicode_math_to_latex s) as [|n r]; [exact I|]. destruct (H n r eq_refl) as [A B].
  unfold tex_letter. rewrite A, B. reflexivity.
Qed.
Example C32_ex : unicode_math_to_latex [0x3B1] <> unicode_math_to_latex [0x3B2]
  /\ tokens Plain (unicode_math_to_latex [0x3B1; 0x3B2; ch "+"]) = [Tword (lit "alpha"); Tword (lit "beta"); Tchar (ch "+")].
Proof. vm_compute. split; [discriminate|reflexivity]. Qed.
Example C32_ex_hyp : unicode_math_to_latex [0x3B2] <> unicode_math_to_latex [0x3B1].
Proof.
  apply C32_distinct_partial; [discriminate|]. rewrite <- memN_In. vm_compute. discriminate.
Qed.
(* Psi is written as Omega, "less or equal" as \gg, subscript plus as
   superscript plus, and a letter after a command is read as part of it *)
Theorem C32_refuted :
  unicode_math_to_latex [0x3A8] = lit "\Omega" /\ unicode_math_to_latex [0x2126] = lit "\Omega" /\
  unicode_math_to_latex [0x2264] = lit "\gg" /\
  unicode_math_to_latex [0x208A] = unicode_math_to_latex [0x207A] /\
  tokens Plain (unicode_math_to_latex [0x3B1; ch "x"]) = [Tword (lit "alphax")].
Proof.
  split; [vm_compute; reflexivity|]. split; [vm_compute; reflexivity|]. split; [vm_compute; reflexivity|].
  split; vm_compute; reflexivity.
Qed.

(* ===== C46 specials in math stay escaped ===== *)
(* if no # $ % is already escaped in the source, all of them are escaped in the
   output *)
Theorem C46_specials_partial s : occurs true (lit "#$%") false s = false ->
  occurs false (lit "#$%") false (unicode_math_to_latex s) = false.
Proof. exact (math_specials s false). Qed.
Example C46_ex : occurs true (lit "#$%") false (lit "\frac{5}{3} $ 50%") = false
  /\ unicode_math_to_latex (lit "$ 50%") = lit "\$ 50\%".
Proof. vm_compute. split; reflexivity. Qed.
(* an already escaped one is escaped again, which leaves it bare *)
Theorem C46_refuted :
  unicode_math_to_latex (lit "50\%") = lit "50\\%" /\
  occurs false (lit "#$%") false (lit "50\%") = false /\
  occurs false (lit "#$%") false (unicode_math_to_latex (lit "50\%")) = true.
Proof. vm_compute. split; [|split]; reflexivity. Qed.

Print Assumptions C30_reads_back_partial.
Print Assumptions C32_distinct_partial.
Print Assumptions C32_not_glued_partial.
Print Assumptions C46_specials_partial.
