(* What the word glosser is to print in blocks and for LaTeX. *)
From Coq Require Import String Ascii List NArith ZArith Bool Arith.
From Verif Require Import LujvoSpec LayoutSpec CmSpec.
Import ListNotations.
Open Scope string_scope.
Open Scope list_scope.

(* a word with its class and its gloss, the end of a paragraph, a bracket or the text in one *)
Inductive piece : Type := Glossed (w c t : list ascii) | Blank | Bracket (t : list ascii).
Inductive item_pieces (dict : list ascii -> option (list ascii)) : item -> list piece -> Prop :=
| ip_word w c t : word_shown dict w c t -> (N.of_nat (List.length t) < 65536)%N -> (N.of_nat (List.length c) < 65536)%N ->
    item_pieces dict (Word w) [Glossed w c t]
| ip_none w : no_word w -> item_pieces dict (Word w) []
| ip_paragraph : item_pieces dict Paragraph [Blank]
| ip_brackets ps : item_pieces dict (Brackets ps) (map Bracket ps).

(* three rows: the word, its class, its gloss, and a space *)
Definition rows (a b c : list ascii) : ev := B (Block (a ++ [" "%char]) (b ++ [" "%char]) [c ++ [" "%char]]).
Definition in_rows (p : piece) : list ev :=
  match p with
  | Glossed w c t => [rows w c t]
  | Blank => [Rest 1]
  | Bracket t => [rows ["("%char] ["("%char] ["("%char]; B (Block (t ++ [" "%char]) [] [[]]); rows [")"%char] [")"%char] [")"%char]]
  end.
Definition narrow (p : piece) : Prop :=
  match p with
  | Glossed w c t => List.length w < 511 /\ List.length c < 511 /\ List.length t < 511
  | Blank => True
  | Bracket t => List.length t < 511
  end.

(* LaTeX *)
Definition lines (l : list string) : list ascii := concat (map (fun s => text s ++ [newline]) l).
Definition preamble : list ascii := lines
  ["\documentclass[10pt]{article}"; "\usepackage{geometry}"; "\geometry{left=0.5in,right=0.5in,top=0.5in,bottom=0.5in,a4paper}";
   "\def\rmdefault{bch}"; "\setlength{\parindent}{0pt}"; "\setlength{\parskip}{1ex plus0.5ex minus0.5ex}";
   "\setlength{\baselineskip}{10pt}"; "\def\arraystretch{0.7}"; "\begin{document}"].
Definition small (font : string) (t : list ascii) : list ascii := text "\text" ++ text font ++ text "{\footnotesize " ++ t ++ text "}".
Definition in_latex (p : piece) : list ascii :=
  match p with
  | Glossed w c t =>
      text "\begin{tabular}[t]{l}" ++ small "bf" w ++ text "\\" ++ [newline] ++ small "rm" c ++ text "\\" ++ [newline]
      ++ small "it" t ++ [newline] ++ text "\end{tabular}" ++ [newline] ++ text "\rule{0in}{1.0\baselineskip}"
  | Blank => [newline; newline]
  | Bracket t => small "rm" t
  end.
