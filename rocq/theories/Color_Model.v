(** Model of /repo/src/graphics/color.cc, color_map.cc, color_palette.cc, color_reader.cc.
    Arithmetic: [d] rounds double operations, [f] float operations (Num.v). *)
From Coq Require Export Permutation Sorted.
From Verif Require Import Base Sexpr_Model Dispatch_Model Num Units_Model Str_Model.
Local Open Scope R_scope.

(** Color, /repo/src/graphics/color.h:28-54: components 0 to 3 are red, green, blue, alpha. *)
Record color := mk_color { c_r : xr; c_g : xr; c_b : xr; c_a : xr }.
(** Color::Color(), color.cc:31-41. *)
Definition black : color := mk_color (Fin 0) (Fin 0) (Fin 0) (Fin 1).
(** Color::fromRGB(A), color.cc:23-29. *)
Definition from_rgba (r g b a : xr) : color := mk_color r g b a.
Definition from_rgb (r g b : xr) : color := mk_color r g b (Fin 1).
(** color_is_black, color.cc:149-151. *)
Definition color_is_black (c : color) : bool :=
  xeq (c_r c) (Fin 0) && xeq (c_g c) (Fin 0) && xeq (c_b c) (Fin 0).

(** strtol (C locale): white space, sign, an optional 0x for base 16, digits. [None] when
    there are no digits. *)
Definition space_char (c : ascii) : bool :=
  ((9 <=? nat_of_ascii c) && (nat_of_ascii c <=? 13) || (nat_of_ascii c =? 32))%nat.
Fixpoint skip_space (s : str) : str :=
  match s with c :: r => if space_char c then skip_space r else s | [] => [] end.
Definition digit_val (base : nat) (c : ascii) : option Z :=
  let n := nat_of_ascii c in
  let v := if between "0" "9" c then Some (n - 48)%nat
           else if between "a" "z" c then Some (n - 87)%nat
           else if between "A" "Z" c then Some (n - 55)%nat else None in
  match v with Some v => if (v <? base)%nat then Some (Z.of_nat v) else None | None => None end.
Fixpoint read_digits (base : nat) (acc : Z) (s : str) : Z :=
  match s with
  | c :: r => match digit_val base c with
              | Some v => read_digits base (acc * Z.of_nat base + v) r
              | None => acc
              end
  | [] => acc
  end.
Definition starts_digit (base : nat) (s : str) : bool :=
  match s with c :: _ => match digit_val base c with Some _ => true | None => false end | [] => false end.
Definition skip_0x (base : nat) (s : str) : str :=
  match s with
  | z :: x :: r => if ((base =? 16)%nat && Ascii.eqb z "0" && (Ascii.eqb x "x" || Ascii.eqb x "X") && starts_digit 16 r)%bool
                   then r else s
  | _ => s
  end.
Definition strtol (base : nat) (s : str) : option Z :=
  let s := skip_space s in
  let '(neg, s) := match s with
                   | c :: r => if Ascii.eqb c "-" then (true, r) else if Ascii.eqb c "+" then (false, r) else (false, s)
                   | [] => (false, [])
                   end in
  let s := skip_0x base s in
  if starts_digit base s then
    let v := read_digits base 0 s in Some (if neg then (- v)%Z else v)
  else None.
(** std::stoi, std::stol, std::stoul: std::invalid_argument without digits, std::out_of_range
    outside of the type. (stoul of a negative number is not modelled: the code only calls it
    on digits.) *)
Definition sto (lo hi : Z) (base : nat) (s : str) : outcome Z :=
  match strtol base s with
  | Some v => if ((lo <=? v) && (v <=? hi))%Z then Ret v else Throw
  | None => Throw
  end.
Definition stoi := sto (- 2 ^ 31) (2 ^ 31 - 1).
Definition stol := sto (- 2 ^ 63) (2 ^ 63 - 1).
Definition stoul := sto 0 (2 ^ 64 - 1).

Definition substr (s : str) (pos n : nat) : str := firstn n (skipn pos s).

Section Colors.
  Variables d f : R -> R.

  (** std::stoi(..., 16) / 255.0f and / 15.0f: an int divided by a float. *)
  Definition hex_component (s : str) (scale : R) : outcome xr :=
    let* v := stoi 16 s in Ret (xdiv f (Fin (IZR v)) (Fin scale)).

  (** Color::parseHex, color.cc:86-96. *)
  Definition parse_hex (s : str) (c : color) : outcome (bool * color) :=
    if negb (length s =? 7)%nat then Ret (false, c) else
    let* r := hex_component (substr s 1 2) 255 in
    let* g := hex_component (substr s 3 2) 255 in
    let* b := hex_component (substr s 5 2) 255 in
    Ret (true, mk_color r g b (Fin 1)).
  (** Color::parseHexAlpha, color.cc:98-108. *)
  Definition parse_hex_alpha (s : str) (c : color) : outcome (bool * color) :=
    if negb (length s =? 9)%nat then Ret (false, c) else
    let* r := hex_component (substr s 1 2) 255 in
    let* g := hex_component (substr s 3 2) 255 in
    let* b := hex_component (substr s 5 2) 255 in
    let* a := hex_component (substr s 7 2) 255 in
    Ret (true, mk_color r g b a).
  (** Color::parseHexShort, color.cc:110-120. *)
  Definition parse_hex_short (s : str) (c : color) : outcome (bool * color) :=
    if negb (length s =? 4)%nat then Ret (false, c) else
    let* r := hex_component (substr s 1 1) 15 in
    let* g := hex_component (substr s 2 1) 15 in
    let* b := hex_component (substr s 3 1) 15 in
    Ret (true, mk_color r g b (Fin 1)).
  (** Color::parse, color.cc:71-84: the result, and the new colour. *)
  Definition parse (s : str) (c : color) : outcome (bool * color) :=
    if begins_with s (s_ "#") then
      match length s with
      | 4%nat => parse_hex_short s c
      | 7%nat => parse_hex s c
      | 9%nat => parse_hex_alpha s c
      | _ => Ret (false, c)
      end
    else Ret (false, c).

  (** int(double): truncation; outside of the range of int undefined. *)
  Definition to_int (a : xr) : outcome Z :=
    match a with
    | Fin x => let z := Ztrunc x in if ((- 2 ^ 31 <=? z) && (z <? 2 ^ 31))%Z then Ret z else UB
    | _ => UB
    end.
  (** An int on a stream with std::hex: the hexadecimal digits of its 32 bits. *)
  Fixpoint hex_ (n : nat) (z : Z) : str :=
    match n with
    | O => []
    | S n' => hex_ n' (z / 16)%Z ++ [hex_digit (Z.to_nat (z mod 16))]
    end.
  Fixpoint drop_zeros (s : str) : str :=
    match s with
    | c :: (_ :: _) as r => if Ascii.eqb c "0" then drop_zeros r else s
    | _ => s
    end.
  (** ... with std::setfill('0') and std::setw(2). *)
  Definition hex_int (z : Z) : str :=
    let s := drop_zeros (hex_ 8 (z mod 2 ^ 32)) in
    if (length s <? 2)%nat then "0"%char :: s else s.
  (** Color::to_hex_str, color.cc:122-134, for n <= 4 (it reads past the array for more). *)
  Fixpoint hex_channels (l : list xr) : outcome str :=
    match l with
    | [] => Ret []
    | c :: r => let* z := to_int (xmul d c (Fin 255)) in
                let* t := hex_channels r in Ret (hex_int z ++ t)
    end.
  Definition to_hex_str (n : nat) (c : color) : outcome str :=
    if (4 <? n)%nat then UB else
    let* t := hex_channels (firstn n [c_r c; c_g c; c_b c; c_a c]) in Ret (s_ "#" ++ t).

  (** std::stod *)
  Variable stod : str -> option (xr * nat).

  (** Color maps, /repo/src/color_map.cc. std::sort leaves the order of equal keys open: the
      maps take the sorted list; [sorted_of] says which lists those are. With a NaN among the
      keys std::sort is undefined. *)
  Notation stops := (list (xr * color)).
  Definition key_le (a b : xr * color) : Prop := xlt (fst b) (fst a) = false.
  Definition sorted_of (l l' : stops) : Prop := Permutation l l' /\ StronglySorted key_le l'.

  (** std::lower_bound by the keys: the position of the first stop that is not below [v];
      std::upper_bound: of the first one above [v]. *)
  Fixpoint lower_bound (l : stops) (v : xr) : nat :=
    match l with
    | [] => 0
    | a :: r => if xlt (fst a) v then S (lower_bound r v) else 0
    end.
  Fixpoint upper_bound (l : stops) (v : xr) : nat :=
    match l with
    | [] => 0
    | a :: r => if xlt v (fst a) then 0 else S (upper_bound r v)
    end.

  Definition mix (c0 c1 : color) (w0 w1 : xr) : color :=
    let m a b := xadd d (xmul d a w0) (xmul d b w1) in
    from_rgba (m (c_r c0) (c_r c1)) (m (c_g c0) (c_g c1)) (m (c_b c0) (c_b c1)) (m (c_a c0) (c_a c1)).

  (** The function returned by color_map_gradient, color_map.cc:18-76; [l] is sorted. *)
  Definition gradient (l : stops) (value : str) : outcome color :=
    match l with
    | [] => Ret black
    | _ =>
        match stod value with
        | None => Err
        | Some (v, _) =>
            let v := clamp01 v in
            let i := lower_bound l v in
            match nth_error l i with
            | None => UB                                   (* step is gradient.end() *)
            | Some (limit1, color1) =>
                let '(limit0, color0) := match i with
                                         | O => (Fin 0, black)
                                         | S j => nth j l (Fin 0, black)
                                         end in
                let w1 := xdiv d (xsub d v limit0) (xsub d limit1 limit0) in
                let w0 := xsub d (Fin 1) w1 in
                let '(w0, w1) := if xle limit1 v then (Fin 0, Fin 1) else (w0, w1) in
                Ret (mix color0 color1 w0 w1)
            end
        end
    end.

  (** The function returned by color_map_steps, color_map.cc:79-119. *)
  Definition steps (l : stops) (value : str) : outcome color :=
    match l with
    | [] => Ret black
    | _ =>
        match stod value with
        | None => Err
        | Some (v, _) =>
            match upper_bound l (clamp01 v) with
            | O => Ret black
            | S j => match nth_error l j with Some (_, c) => Ret c | None => UB end
            end
        end
    end.

  (** Indexing a palette. *)
  Definition palette_at (p : list color) (i : Z) : outcome color :=
    match nth_error p (Z.to_nat i) with Some c => Ret c | None => UB end.

  (** expr_to_color, /repo/src/color_reader.cc:30-95, with the colour palette of the layer;
      [e] is the expression and what follows it, [c] the old value of *color. *)
  Definition head_is (w : str) (a : list expr) : bool :=
    match value_of a with Some v => str_eqb v w | None => false end.
  Definition expr_to_color (palette : list color) (e : list expr) (c : color) : outcome color :=
    match e with
    | (ELit v | EVal v) :: _ =>
        let* (ok, c1) := if begins_with v (s_ "#") then parse v c else Ret (false, c) in
        if ok then Ret c1 else
        if is_digit_string v then
          match palette with
          | [] => Ret c1
          | _ => let* i := stol 10 v in
                 (* long - 1, converted to size_t *)
                 palette_at palette (((i - 1) mod 2 ^ 64) mod Z.of_nat (length palette))
          end
        else Err
    | EList args :: _ =>
        match args with
        | [h; a1; a2; a3] =>
            if head_is (s_ "rgb") args then
              let* x := expr_to_float64 stod [a1] in
              let* y := expr_to_float64 stod [a2] in
              let* z := expr_to_float64 stod [a3] in Ret (from_rgb x y z)
            else Err
        | [h; a1; a2; a3; a4] =>
            if head_is (s_ "rgba") args then
              let* x := expr_to_float64 stod [a1] in
              let* y := expr_to_float64 stod [a2] in
              let* z := expr_to_float64 stod [a3] in
              let* a := expr_to_float64 stod [a4] in Ret (from_rgba x y z a)
            else Err
        | _ => Err
        end
    | [] => Err
    end.

  (** color_read_string, color_reader.cc:97-123. *)
  Definition color_read_string (palette : list color) (v : str) (c : color) : outcome color :=
    let* (ok, c1) := if begins_with v (s_ "#") then parse v c else Ret (false, c) in
    if ok then Ret c1 else
    if is_digit_string v then
      match palette with
      | [] => Ret c1
      | _ => let* i := stoul 10 v in palette_at palette (i mod Z.of_nat (length palette))
      end
    else Err.

  (** The list of stops read by color_map_read_gradient and color_map_read_steps,
      color_reader.cc:138-200 (the same loop twice). *)
  Fixpoint read_stops (palette : list color) (args : list expr) : outcome stops :=
    match args with
    | [] => Ret []
    | [_] => Ret []                                     (* excluded by the length check *)
    | k :: a :: r =>
        let* s := expr_to_float64 stod [k] in
        let* c := expr_to_color palette [a] black in
        let* t := read_stops palette r in Ret ((s, c) :: t)
    end.
  Definition map_stops (palette : list color) (args : list expr) : outcome stops :=
    if Nat.odd (length args) then Err else read_stops palette args.

  (** color_map_read, color_reader.cc:202-220: the kind of map and its stops. *)
  Inductive map_kind := Gradient | Steps.
  Definition color_map_read (palette : list color) (e : list expr) : outcome (map_kind * stops) :=
    match e with
    | EList args :: _ =>
        if head_is (s_ "gradient") args then let* l := map_stops palette (tl args) in Ret (Gradient, l)
        else if head_is (s_ "steps") args then let* l := map_stops palette (tl args) in Ret (Steps, l)
        else Err
    | _ => Err
    end.

  (** COLOR_PALETTES and color_palette_default, /repo/src/color_palette.cc:18-83. *)
  Definition palettes : list (str * list str) :=
    [(s_ "fnord", [s_ "#4572a7"; s_ "#aa4643"; s_ "#db843d"; s_ "#89a54e"; s_ "#80699b"; s_ "#3d96ae"]);
     (s_ "zhang", [s_ "#6a88c4"; s_ "#75c042"; s_ "#efeb52"; s_ "#f5a325"; s_ "#f92d23"; s_ "#9551a1";
                   s_ "#323085"; s_ "#a2a2a2"])].
  Fixpoint parse_all (l : list str) : outcome (list color) :=
    match l with
    | [] => Ret []
    | v :: r => let* (_, c) := parse v black in let* t := parse_all r in Ret (c :: t)
    end.
  Definition color_palette_default (name : str) : outcome (list color) :=
    match assoc name palettes with Some l => parse_all l | None => Err end.

  (** color_palette_read, color_reader.cc:222-250: clears the palette, then reads. The colour
      [c] is not reset between the items. *)
  Fixpoint read_colors (palette : list color) (args : list expr) (c : color) (acc : list color)
    : list color * outcome unit :=
    match args with
    | [] => (acc, Ret tt)
    | a :: r => match expr_to_color palette args c with
                | Ret c1 => read_colors palette r c1 (acc ++ [c1])
                | Err => (acc, Err) | Throw => (acc, Throw) | UB => (acc, UB) | Diverge => (acc, Diverge)
                end
    end.
  Definition color_palette_read (palette : list color) (e : list expr) : list color * outcome unit :=
    match e with
    | (ELit v | EVal v) :: _ =>
        match color_palette_default v with
        | Ret l => (l, Ret tt) | Err => ([], Err) | Throw => ([], Throw) | UB => ([], UB) | Diverge => ([], Diverge)
        end
    | EList args :: _ => read_colors palette args black []
    | [] => ([], Err)
    end.
End Colors.
