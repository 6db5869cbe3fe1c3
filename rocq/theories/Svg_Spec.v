(** Specification of SVG output: a reader for the SVG files concerned, without reference to the
    writer. It follows XML 1.0 (attributes between double quotes, no quote, '<' or '&' inside,
    no attribute twice, no "--" in a comment) and the painting rules of SVG 1.1: a path is
    first filled (by default black, opacity 1), then stroked (by default not at all). *)
From Verif Require Import Base Dec.
From Coq Require Import Reals.
Local Open Scope R_scope.

(** A decimal number: mantissa and number of digits after the point. *)
Definition decimal := (Z * nat)%type.
Definition dval (q : decimal) : R := IZR (fst q) / 10 ^ snd q.

Definition is_digitb (c : ascii) : bool := (48 <=? nat_of_ascii c)%nat && (nat_of_ascii c <=? 57)%nat.
Definition digits (s : str) : bool := negb (Nat.eqb (length s) 0) && forallb is_digitb s.
(** The text before the first [c], and after it. *)
Fixpoint until (c : ascii) (s : str) : option (str * str) :=
  match s with
  | [] => None
  | a :: r => if Ascii.eqb a c then Some ([], r)
              else match until c r with Some (u, v) => Some (a :: u, v) | None => None end
  end.
(** ddd and ddd.ddd, with a sign or without. *)
Definition read_abs (s : str) : option decimal :=
  match until "." s with
  | None => if digits s then Some (value s, 0%nat) else None
  | Some (a, b) => if digits a && digits b then Some (value (a ++ b), length b) else None
  end.
Definition read_decimal (s : str) : option decimal :=
  match s with
  | c :: r => if Ascii.eqb c "-" then match read_abs r with Some (m, e) => Some ((- m)%Z, e) | None => None end
              else read_abs s
  | [] => None
  end.

(** The words between spaces. *)
Fixpoint words (s : str) : list str :=
  match s with
  | [] => [[]]
  | c :: r => if Ascii.eqb c " " then [] :: words r
              else match words r with w :: l => (c :: w) :: l | [] => [[c]] end
  end.
Fixpoint decimals (l : list str) : option (list decimal) :=
  match l with
  | [] => Some []
  | w :: r => match read_decimal w, decimals r with Some q, Some l => Some (q :: l) | _, _ => None end
  end.
Definition read_list (s : str) : option (list decimal) :=
  match s with [] => Some [] | _ => decimals (words s) end.

(** Outlines. *)
Inductive seg (N : Type) :=
| SMove (x y : N)
| SLine (x y : N)
| SQuad (a b x y : N)
| SCubic (a b c e x y : N)
| SClose.
Arguments SMove {N}. Arguments SLine {N}. Arguments SQuad {N}. Arguments SCubic {N}. Arguments SClose {N}.

(** Absolute path commands: the letter directly before the first number. *)
Fixpoint read_segs (l : list str) : option (list (seg decimal)) :=
  match l with
  | [] => Some []
  | [] :: _ => None
  | (k :: w) :: r =>
      if Ascii.eqb k "Z" then
        match w, read_segs r with [], Some t => Some (SClose :: t) | _, _ => None end
      else if Ascii.eqb k "M" then
        match r with
        | y :: r => match read_decimal w, read_decimal y, read_segs r with
                    | Some x, Some y, Some t => Some (SMove x y :: t) | _, _, _ => None end
        | _ => None end
      else if Ascii.eqb k "L" then
        match r with
        | y :: r => match read_decimal w, read_decimal y, read_segs r with
                    | Some x, Some y, Some t => Some (SLine x y :: t) | _, _, _ => None end
        | _ => None end
      else if Ascii.eqb k "Q" then
        match r with
        | b :: x :: y :: r =>
            match read_decimal w, read_decimal b, read_decimal x, read_decimal y, read_segs r with
            | Some a, Some b, Some x, Some y, Some t => Some (SQuad a b x y :: t) | _, _, _, _, _ => None end
        | _ => None end
      else if Ascii.eqb k "C" then
        match r with
        | b :: c :: e :: x :: y :: r =>
            match read_decimal w, read_decimal b, read_decimal c, read_decimal e, read_decimal x, read_decimal y, read_segs r with
            | Some a, Some b, Some c, Some e, Some x, Some y, Some t => Some (SCubic a b c e x y :: t)
            | _, _, _, _, _, _, _ => None end
        | _ => None end
      else None
  end.
Definition read_outline (s : str) : option (list (seg decimal)) :=
  match s with [] => Some [] | _ => read_segs (words s) end.

(** Colours: #rrggbb. *)
Definition hexval (c : ascii) : option nat :=
  let n := nat_of_ascii c in
  if (48 <=? n)%nat && (n <=? 57)%nat then Some (n - 48)%nat
  else if (97 <=? n)%nat && (n <=? 102)%nat then Some (n - 87)%nat else None.
Definition level := (nat * nat * nat)%type.
Definition read_color (s : str) : option level :=
  match s with
  | [h; a; b; c; e; f; g] =>
      if Ascii.eqb h "#" then
        match hexval a, hexval b, hexval c, hexval e, hexval f, hexval g with
        | Some a, Some b, Some c, Some e, Some f, Some g => Some (16 * a + b, 16 * c + e, 16 * f + g)%nat
        | _, _, _, _, _, _ => None
        end
      else None
  | _ => None
  end.
Definition read_paint (s : str) : option (option level) :=
  if str_eqb s (s_ "none") then Some None
  else match read_color s with Some c => Some (Some c) | None => None end.

(** XML character data: the predefined entities replaced (those the files can contain); None on a
    bare '&', or on '<'. *)
Fixpoint unescape (s : str) : option str :=
  match s with
  | [] => Some []
  | c :: r =>
      if Ascii.eqb c "<" then None
      else if Ascii.eqb c "&" then
        match r with
        | "a"%char :: "m"%char :: "p"%char :: ";"%char :: r => option_map (cons "&"%char) (unescape r)
        | "l"%char :: "t"%char :: ";"%char :: r => option_map (cons "<"%char) (unescape r)
        | "g"%char :: "t"%char :: ";"%char :: r => option_map (cons ">"%char) (unescape r)
        | "q"%char :: "u"%char :: "o"%char :: "t"%char :: ";"%char :: r => option_map (cons c_dq) (unescape r)
        | _ => None
        end
      else option_map (cons c) (unescape r)
  end.

(** XML: attributes, elements, the document. *)
Fixpoint strip (p s : str) : option str :=
  match p, s with
  | [], _ => Some s
  | a :: p, b :: s => if Ascii.eqb a b then strip p s else None
  | _, _ => None
  end.
Definition name_char (c : ascii) : bool :=
  ((97 <=? nat_of_ascii c)%nat && (nat_of_ascii c <=? 122)%nat) || Ascii.eqb c "-".
Fixpoint span (f : ascii -> bool) (s : str) : str * str :=
  match s with
  | c :: r => if f c then let (u, v) := span f r in (c :: u, v) else ([], s)
  | [] => ([], [])
  end.
Notation attrs := (list (str * str)).
Fixpoint read_attrs (n : nat) (s : str) : option (attrs * str) :=
  match n, s with
  | O, _ => None
  | S n, c :: r =>
      if Ascii.eqb c " " then
        match span name_char r with
        | (x :: name, e :: q :: r) =>
            if Ascii.eqb e "=" && Ascii.eqb q """" then
              match until """" r with
              | Some (v, r) =>
                  match unescape v, read_attrs n r with
                  | Some v, Some (l, r) => if existsb (fun a => str_eqb (fst a) (x :: name)) l then None
                                   else Some ((x :: name, v) :: l, r)
                  | _, _ => None
                  end
              | None => None
              end
            else None
        | _ => None
        end
      else Some ([], s)
  | S _, [] => Some ([], [])
  end.
(** Empty elements, one to a line, up to the end of the document. *)
Fixpoint read_elements (n : nat) (s : str) : option (list (str * attrs)) :=
  match n with
  | O => None
  | S n =>
      if str_eqb s (s_ "</svg>" ++ [c_nl]) then Some [] else
      match strip (s_ "  <") s with
      | Some r =>
          let (name, r) := span name_char r in
          match read_attrs (length r) r with
          | Some (l, r) =>
              match strip (s_ "/>" ++ [c_nl]) r with
              | Some r => match read_elements n r with Some es => Some ((name, l) :: es) | None => None end
              | None => None
              end
          | None => None
          end
      | None => None
      end
  end.
Fixpoint end_comment (s : str) : option str :=
  match s with
  | [] => None
  | a :: r => match strip (s_ "--") s with Some q => strip (s_ ">") q | None => end_comment r end
  end.
Definition read_xml (s : str) : option (attrs * list (str * attrs)) :=
  match strip (s_ "<?xml version=""1.0"" encoding=""UTF-8"" ?>" ++ [c_nl] ++ s_ "<!--") s with
  | Some r =>
      match end_comment r with
      | Some r =>
          match strip ([c_nl] ++ s_ "<svg") r with
          | Some r =>
              match read_attrs (length r) r with
              | Some (l, r) =>
                  match strip (s_ ">" ++ [c_nl]) r with
                  | Some r => match read_elements (length r) r with Some es => Some (l, es) | None => None end
                  | None => None
                  end
              | None => None
              end
          | None => None
          end
      | None => None
      end
  | None => None
  end.

(** What is painted, in this order: N are the numbers, C the colours. *)
Inductive paint (N C : Type) :=
| Fill (outline : list (seg N)) (c : C) (opacity : N) (crisp : bool)
| Stroke (outline : list (seg N)) (c : C) (opacity width : N) (dash : list N) (offset : N) (crisp : bool).
Arguments Fill {N C}. Arguments Stroke {N C}.

Definition get (l : attrs) (name : str) : option str :=
  match find (fun a => str_eqb (fst a) name) l with Some (_, v) => Some v | None => None end.
(** An attribute read by [f], or a default. *)
Definition attr {A} (f : str -> option A) (default : option A) (l : attrs) (name : string) : option A :=
  match get l (s_ name) with Some v => f v | None => default end.
Definition known : list str :=
  [s_ "d"; s_ "width"; s_ "height"; s_ "fill"; s_ "fill-opacity"; s_ "stroke"; s_ "stroke-opacity";
   s_ "stroke-width"; s_ "stroke-dasharray"; s_ "stroke-dashoffset"; s_ "shape-rendering"].
Definition read_crisp (s : str) : option bool := if str_eqb s (s_ "crispEdges") then Some true else None.
Definition zero : decimal := (0%Z, 0%nat).
Definition one : decimal := (1%Z, 0%nat).
(** The outline of a path or rect element. *)
Definition outline (e : str * attrs) : option (list (seg decimal)) :=
  if str_eqb (fst e) (s_ "path") then attr read_outline None (snd e) "d"
  else if str_eqb (fst e) (s_ "rect") then
    match attr read_decimal None (snd e) "width", attr read_decimal None (snd e) "height" with
    | Some w, Some h => Some [SMove zero zero; SLine w zero; SLine w h; SLine zero h; SClose]
    | _, _ => None
    end
  else None.
Definition paints (e : str * attrs) : option (list (paint decimal level)) :=
  if forallb (fun a => existsb (str_eqb (fst a)) known) (snd e) then
    match outline e,
      attr read_paint (Some (Some (0, 0, 0)%nat)) (snd e) "fill",
      attr read_decimal (Some one) (snd e) "fill-opacity",
      attr read_paint (Some None) (snd e) "stroke",
      attr read_decimal (Some one) (snd e) "stroke-opacity",
      attr read_decimal (Some one) (snd e) "stroke-width",
      attr read_list (Some []) (snd e) "stroke-dasharray",
      attr read_decimal (Some zero) (snd e) "stroke-dashoffset",
      attr read_crisp (Some false) (snd e) "shape-rendering" with
    | Some o, Some f, Some fo, Some s, Some so, Some w, Some dash, Some off, Some crisp =>
        Some (match f with Some c => [Fill o c fo crisp] | None => [] end ++
              match s with Some c => [Stroke o c so w dash off crisp] | None => [] end)
    | _, _, _, _, _, _, _, _, _ => None
    end
  else None.
Fixpoint all_paints (l : list (str * attrs)) : option (list (paint decimal level)) :=
  match l with
  | [] => Some []
  | e :: r => match paints e, all_paints r with Some a, Some b => Some (a ++ b) | _, _ => None end
  end.
(** Width, height, and what is painted. *)
Definition read_svg (s : str) : option (decimal * decimal * list (paint decimal level)) :=
  match read_xml s with
  | Some (l, es) =>
      match get l (s_ "xmlns"), attr read_decimal None l "width", attr read_decimal None l "height", all_paints es with
      | Some ns, Some w, Some h, Some p =>
          if str_eqb ns (s_ "http://www.w3.org/2000/svg") then Some (w, h, p) else None
      | _, _, _, _ => None
      end
  | None => None
  end.

(** A decimal shows a number: to the nearest thousandth, whole numbers exactly. *)
Definition close (x : R) (q : decimal) : Prop :=
  Rabs (dval q - x) <= 1 / 2000 /\ forall z, x = IZR z -> dval q = x.
Inductive seg_rel {A B} (P : A -> B -> Prop) : seg A -> seg B -> Prop :=
| rel_move x y x' y' : P x x' -> P y y' -> seg_rel P (SMove x y) (SMove x' y')
| rel_line x y x' y' : P x x' -> P y y' -> seg_rel P (SLine x y) (SLine x' y')
| rel_quad a b x y a' b' x' y' : P a a' -> P b b' -> P x x' -> P y y' -> seg_rel P (SQuad a b x y) (SQuad a' b' x' y')
| rel_cubic a b c e x y a' b' c' e' x' y' : P a a' -> P b b' -> P c c' -> P e e' -> P x x' -> P y y' ->
    seg_rel P (SCubic a b c e x y) (SCubic a' b' c' e' x' y')
| rel_close : seg_rel P SClose SClose.
Inductive paint_rel {A B C D} (P : A -> B -> Prop) (Q : C -> D -> Prop) : paint A C -> paint B D -> Prop :=
| rel_fill o c w crisp o' c' w' : Forall2 (seg_rel P) o o' -> Q c c' -> P w w' ->
    paint_rel P Q (Fill o c w crisp) (Fill o' c' w' crisp)
| rel_stroke o c w u dash off crisp o' c' w' u' dash' off' :
    Forall2 (seg_rel P) o o' -> Q c c' -> P w w' -> P u u' -> Forall2 P dash dash' -> P off off' ->
    paint_rel P Q (Stroke o c w u dash off crisp) (Stroke o' c' w' u' dash' off' crisp).

