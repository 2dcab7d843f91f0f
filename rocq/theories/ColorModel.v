(** ColorModel.v - adjust_lightness (pyPDP/utils/plotting.py:100-124) over the reals, with the functions
    rgb_to_hls, hls_to_rgb of the standard library module colorsys that it calls. *)
From Coq Require Import Reals.
From Flocq Require Import Core.Core.
From Verif Require Import Base Num.
Local Open Scope R_scope.

(** an rgb (or hls) triple: what mc.to_rgb returns, plotting.py:123 *)
Definition rgb := (R * R * R)%type.

(** x % 1.0 (colorsys.rgb_to_hls and colorsys._v, called at plotting.py:123-124) *)
Definition mod1 (x : R) : R := x - IZR (Zfloor x).

(** max(r, g, b), min(r, g, b): the first maximal (minimal) argument:
    colorsys.rgb_to_hls, and max(0., ..) at plotting.py:124 *)
Definition py_max (x y : R) : R := if Rltb x y then y else x.
(** min as in colorsys.rgb_to_hls, and min(1., ..) at plotting.py:124 *)
Definition py_min (x y : R) : R := if Rltb y x then y else x.

(** colorsys.rgb_to_hls, called at plotting.py:123 *)
Definition rgb_to_hls (c : rgb) : rgb :=
  let '(r, g, b) := c in
  let maxc := py_max (py_max r g) b in
  let minc := py_min (py_min r g) b in
  let sumc := maxc + minc in
  let rangec := maxc - minc in
  let l := sumc / 2 in
  if Reqb minc maxc then (0, l, 0)
  else
    let s := if Rleb l (1/2) then rangec / sumc else rangec / (2 - maxc - minc) in
    let rc := (maxc - r) / rangec in
    let gc := (maxc - g) / rangec in
    let bc := (maxc - b) / rangec in
    let h := if Reqb r maxc then bc - gc
             else if Reqb g maxc then 2 + rc - bc
             else 4 + gc - rc in
    (mod1 (h / 6), l, s).

(** colorsys._v, used by hls_to_rgb: plotting.py:124 *)
Definition hls_v (m1 m2 hue : R) : R :=
  let hue := mod1 hue in
  if Rltb hue (1/6) then m1 + (m2 - m1) * hue * 6
  else if Rltb hue (1/2) then m2
  else if Rltb hue (2/3) then m1 + (m2 - m1) * (2/3 - hue) * 6
  else m1.

(** colorsys.hls_to_rgb, called at plotting.py:124 *)
Definition hls_to_rgb (c : rgb) : rgb :=
  let '(h, l, s) := c in
  if Reqb s 0 then (l, l, l)
  else
    let m2 := if Rleb l (1/2) then l * (1 + s) else l + s - l * s in
    let m1 := 2 * l - m2 in
    (hls_v m1 m2 (h + 1/3), hls_v m1 m2 h, hls_v m1 m2 (h - 1/3)).

(** adjust_lightness: plotting.py:100-124, for a colour that is already an rgb triple (the lookup of
    names in mc.cnames and mc.to_rgb, plotting.py:119-123, is matplotlib's) *)
Definition adjust_lightness (color : rgb) (amount : R) : rgb :=
  let '(h, l, s) := rgb_to_hls color in
  hls_to_rgb (h, py_max 0 (py_min 1 (amount * l)), s).
