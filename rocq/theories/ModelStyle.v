(** NodeStyle and EdgeStyle objects: constructors, setters, copy, complement. *)
From Verif Require Export Heap.
Local Open Scope string_scope.
Local Open Scope list_scope.

(** [Colour(obj)], NodeStyle.py:19, 137, 149, 161, EdgeStyle.py:21, 110: strings and Colour objects only; anything else is outside
    the model (external package). *)
Definition to_colour (v : pv) : res colour :=
  match v with
  | PStr s => Ok (CName s)
  | PCol c => Ok c
  | _ => Err Unmodelled
  end.

(** NodeStyle.py:4 and EdgeStyle.py:4 *)
Definition default_colour : colour := CHexa "#AAAAAA".

(** A colour attribute that may be None, passed as an argument (NodeStyle.py:90-91,
    EdgeStyle.py:58). *)
Definition opt_pv (o : option colour) : pv :=
  match o with Some c => PCol c | None => PNone end.

(** Keyword lookup with a default, NodeStyle.py:13-17, EdgeStyle.py:14-19. *)
Definition kw (d : sdict) (k : string) (dflt : pv) : pv :=
  match dget d k with Some v => v | None => dflt end.

(** Node.py:74, Edge.py:69: calling with keyword arguments [d] raises TypeError on a key that is not a parameter. *)
Definition check_kwargs (allowed : list string) (d : sdict) : res unit :=
  if forallb (λ k, bool_decide (k ∈ allowed)) (dkeys d) then Ok tt else Err TypeError.

(** NodeStyle.py:9 *)
Definition ratio : Q := 1 # 2.

(** NodeStyle.py:106-125, property setter [colour]; [colour] already converted.
    Lines 108-109 (conversion of strings) are in [ns_set_colour]. *)
Definition ns_put_colour (c : colour) (sty : nstyle) : nstyle :=
  let sty := sty <| ns_colour := c |> in
  let sty := match ns_fill sty with
           | Some _ => sty
           | None => sty <| ns_fill := Some (if ns_lighter sty then CLighten c ratio else CDarken c ratio) |>
                       <| ns_fill_based := true |>
           end in
  let sty := match ns_border sty with
           | Some _ => sty
           | None => sty <| ns_border := Some (if ns_lighter sty then CDarken c (1 # 6) else CLighten c (1 # 6)) |>
                       <| ns_border_based := true |>
           end in
  match ns_text sty with
  | Some _ => sty
  | None => sty <| ns_text := match ns_fill sty with Some f => Some (CGray f) | None => None end |>
              <| ns_text_based := true |>
  end.

(** NodeStyle.py:106-125 with the conversion of lines 108-109.  Simplification: assigning something that is neither a string nor a Colour
    is outside the model. *)
Definition ns_set_colour (v : pv) (sty : nstyle) : res nstyle :=
  let! c := to_colour v in Ok (ns_put_colour c sty).

(** NodeStyle.py:134-137 *)
Definition ns_set_fill (v : pv) (sty : nstyle) : res nstyle :=
  match v with
  | PNone => Ok sty
  | _ => let! c := to_colour v in Ok (sty <| ns_fill := Some c |>)
  end.
(** NodeStyle.py:146-149 *)
Definition ns_set_border (v : pv) (sty : nstyle) : res nstyle :=
  match v with
  | PNone => Ok sty
  | _ => let! c := to_colour v in Ok (sty <| ns_border := Some c |>)
  end.
(** NodeStyle.py:158-162 *)
Definition ns_set_text (v : pv) (sty : nstyle) : res nstyle :=
  match v with
  | PNone => Ok sty
  | _ => let! c := to_colour v in Ok (sty <| ns_text := Some c |> <| ns_text_based := false |>)
  end.

(** The parameters of NodeStyle.__init__, NodeStyle.py:13-17. *)
Definition nstyle_keys : list string :=
  ["colour"; "fill_colour"; "border_colour"; "opacity"; "font"; "text_colour"; "text_size";
   "shape"; "shape_style"; "lighter_fill"].

(** NodeStyle.__init__, NodeStyle.py:13-40, called as [NodeStyle] with keyword
    arguments [d]. *)
Definition nstyle_ctor (d : sdict) : res nstyle :=
  let! _ := check_kwargs nstyle_keys d in
  let fill := kw d "fill_colour" PNone in
  let border := kw d "border_colour" PNone in
  (* line 18 *)
  let! c := to_colour (py_or (kw d "colour" (PCol default_colour))
                         (py_or fill (py_or border (PCol default_colour)))) in
  (* lines 21-29 *)
  let sty := MkNStyle c None None None false false false
             (truthy (kw d "lighter_fill" (PInt 1)))
             (kw d "opacity" PNone) (kw d "font" (PStr "helvetica"))
             (kw d "text_size" (PInt 10)) (kw d "shape" (PStr "box"))
             (kw d "shape_style" (PStr "rounded, filled")) [] in
  (* lines 31-34 *)
  let! sty := ns_set_fill fill sty in
  let! sty := ns_set_border border sty in
  let! sty := ns_set_text (kw d "text_colour" PNone) sty in
  Ok (ns_put_colour c sty).

(** NodeStyle.reset_colours, NodeStyle.py:54-57 *)
Definition ns_reset (sty : nstyle) : nstyle :=
  sty <| ns_fill := None |> <| ns_border := None |> <| ns_text := None |>.

(** NodeStyle.copy, NodeStyle.py:85-97: [lighter_fill] is not passed. *)
Definition ns_copy (sty : nstyle) : res nstyle :=
  let! cp := nstyle_ctor
    [("colour", PCol (ns_colour sty)); ("fill_colour", opt_pv (ns_fill sty));
     ("border_colour", opt_pv (ns_border sty)); ("opacity", ns_opacity sty); ("font", ns_font sty);
     ("text_colour", opt_pv (ns_text sty)); ("text_size", ns_text_size sty);
     ("shape", ns_shape sty); ("shape_style", ns_shape_style sty)] in
  Ok (cp <| ns_fill_based := ns_fill_based sty |> <| ns_text_based := ns_text_based sty |>
        <| ns_border_based := ns_border_based sty |>).

(** [key.startswith('_')], NodeStyle.py:49, EdgeStyle.py:44 *)
Definition underscored (k : string) : bool := String.prefix "_" k.

(** Attribute names of a NodeStyle object that [complement] (NodeStyle.py:47-48) would overwrite
    directly (methods and private attributes); outside the model. *)
Definition nstyle_other_attrs : list string :=
  ["complement"; "reset_colours"; "invert_colours"; "copy"; "get_graphviz_str"; "_graphviz_dictionary";
   "_colour"; "_fill_colour"; "_border_colour"; "_text_colour"; "_opacity"; "_font"; "_text_size";
   "_shape"; "_shape_style"; "_lighter_fill"; "_fill_colour_based_on_main_colour";
   "_border_colour_based_on_main_colour"; "_text_colour_based_on_main_colour"; 
   "fill_colour_based_on_main_colour"; "border_colour_based_on_main_colour";
   "text_colour_based_on_main_colour"; "graphviz_dictionary"].

(** One iteration of NodeStyle.complement, NodeStyle.py:46-52. *)
Definition ns_complement1 (sty : nstyle) (kv : string * pv) : res nstyle :=
  let '(k, v) := kv in
  if eqb k "colour" then ns_set_colour v sty
  else if eqb k "fill_colour" then ns_set_fill v sty
  else if eqb k "border_colour" then ns_set_border v sty
  else if eqb k "text_colour" then ns_set_text v sty
  else if bool_decide (k ∈ nstyle_other_attrs) then Err Unmodelled
  else if underscored k then
    (if dmem (ns_extra sty) k then Err Unmodelled else Err ValueError)
  else if eqb k "opacity" then Ok (sty <| ns_opacity := v |>)
  else if eqb k "font" then Ok (sty <| ns_font := v |>)
  else if eqb k "text_size" then Ok (sty <| ns_text_size := v |>)
  else if eqb k "shape" then Ok (sty <| ns_shape := v |>)
  else if eqb k "shape_style" then Ok (sty <| ns_shape_style := v |>)
  else if eqb k "lighter_fill" then Ok (sty <| ns_lighter := truthy v |>)
  else Ok (sty <| ns_extra := dset (ns_extra sty) ("_" +:+ k) v |>).

(** The style after a NodeStyle.complement that raises nothing, NodeStyle.py:42-52; for what
    an exception leaves see [complement_ns]. *)
Definition ns_complement (d : sdict) (sty : nstyle) : res nstyle := rfold ns_complement1 sty d.

(** NodeStyle.invert_colours, NodeStyle.py:59-83 *)
Definition ns_invert (sty : nstyle) : res nstyle :=
  let! cp := ns_copy sty in
  let! cp := if ns_fill_based cp then Ok (cp <| ns_fill := None |>)
            else match ns_fill cp with
                 | Some c => ns_set_fill (PCol (CInvert c)) cp | None => Err AttributeError end in
  let! cp := if ns_text_based cp then Ok (cp <| ns_text := None |>)
            else match ns_text cp with
                 | Some c => ns_set_text (PCol (CInvert c)) cp | None => Err AttributeError end in
  let! cp := if ns_border_based cp then Ok (cp <| ns_border := None |>)
            else match ns_border cp with
                 | Some c => ns_set_border (PCol (CInvert c)) cp | None => Err AttributeError end in
  Ok (ns_put_colour (CInvert (ns_colour cp)) cp).

(** NodeStyle.__getstate__ / __setstate__, NodeStyle.py:164-185: the state has no
    '_opacity' entry but __setstate__ reads it, so restoring always raises. *)
Definition ns_getstate_keys : list string :=
  ["_colour"; "_fill_colour"; "_border_colour"; "_font"; "_text_colour"; "_text_size"; "_shape"; "_shape_style"].
(** The keys NodeStyle.__setstate__ reads, NodeStyle.py:176-185. *)
Definition ns_setstate_keys : list string :=
  ["_colour"; "_fill_colour"; "_border_colour"; "_opacity"; "_font"; "_text_colour"; "_text_size"; "_shape"; "_shape_style"].
(** Restoring a NodeStyle from its own state, NodeStyle.py:164-185: each key read must be
    there. *)
Definition ns_deepcopy_ok : res unit :=
  rfold (λ _ k, if bool_decide (k ∈ ns_getstate_keys) then Ok tt else Err KeyError) tt ns_setstate_keys.

(** EdgeStyle.py:87-94, property setter [colour] *)
Definition es_put_colour (c : colour) (sty : estyle) : estyle :=
  let sty := sty <| es_colour := c |> in
  match es_text sty with
  | Some _ => sty
  | None => sty <| es_text := Some c |> <| es_text_based := Some true |>
  end.
(** EdgeStyle.py:87-94 with the conversion of lines 89-90.  Simplification: anything but a
    string or a Colour is outside the model. *)
Definition es_set_colour (v : pv) (sty : estyle) : res estyle :=
  let! c := to_colour v in Ok (es_put_colour c sty).

(** EdgeStyle.py:103-111, property setter [text_colour] *)
Definition es_set_text (v : pv) (sty : estyle) : res estyle :=
  match v with
  | PNone => Ok (sty <| es_text := Some (es_colour sty) |> <| es_text_based := Some true |>)
  | _ => let! c := to_colour v in Ok (sty <| es_text := Some c |> <| es_text_based := Some false |>)
  end.

(** The parameters of EdgeStyle.__init__, EdgeStyle.py:14-19. *)
Definition estyle_keys : list string :=
  ["colour"; "opacity"; "font"; "text_colour"; "text_size"; "arrow_size"; "label_style"; "line_width"].

(** EdgeStyle.__init__, EdgeStyle.py:14-35 *)
Definition estyle_ctor (d : sdict) : res estyle :=
  let! _ := check_kwargs estyle_keys d in
  let text := kw d "text_colour" PNone in
  let! c := to_colour (py_or (kw d "colour" (PCol default_colour)) (py_or text (PCol default_colour))) in
  let sty := MkEStyle c None (Some false) (kw d "opacity" (PInt 1)) (kw d "font" (PStr "helvetica"))
             (kw d "text_size" (PInt 8)) (kw d "arrow_size" (PFlt (1 # 2)))
             (kw d "label_style" (PStr "below")) (kw d "line_width" (PInt 1)) [] in
  let! sty := es_set_text text sty in
  Ok (es_put_colour c sty).

(** EdgeStyle.reset_colours, EdgeStyle.py:49-50 *)
Definition es_reset (sty : estyle) : estyle := sty <| es_text := None |>.

(** EdgeStyle.copy, EdgeStyle.py:52-62: [label_style] is not passed; line 61
    reads [_text_colour_based_on_main_colour]. *)
Definition es_copy (sty : estyle) : res estyle :=
  let! cp := estyle_ctor
    [("colour", PCol (es_colour sty)); ("opacity", es_opacity sty); ("font", es_font sty);
     ("text_colour", opt_pv (es_text sty)); ("text_size", es_text_size sty);
     ("arrow_size", es_arrow sty); ("line_width", es_line_width sty)] in
  match es_text_based sty with
  | Some b => Ok (cp <| es_text_based := Some b |>)
  | None => Err AttributeError
  end.

(** As [nstyle_other_attrs], for EdgeStyle.complement, EdgeStyle.py:37-47. *)
Definition estyle_other_attrs : list string :=
  ["complement"; "reset_colours"; "invert_colours"; "copy"; "get_graphviz_str"; "_graphviz_dictionary";
   "_colour"; "_text_colour"; "_opacity"; "_font"; "_text_size"; "_arrow_size"; "_label_style";
   "_line_width"; "_text_colour_based_on_main_colour"; "text_colour_based_on_main_colour";
   "graphviz_dictionary"].

(** One iteration of EdgeStyle.complement, EdgeStyle.py:41-47. *)
Definition es_complement1 (sty : estyle) (kv : string * pv) : res estyle :=
  let '(k, v) := kv in
  if eqb k "colour" then es_set_colour v sty
  else if eqb k "text_colour" then es_set_text v sty
  else if bool_decide (k ∈ estyle_other_attrs) then Err Unmodelled
  else if underscored k then
    (if dmem (es_extra sty) k then Err Unmodelled else Err ValueError)
  else if eqb k "opacity" then Ok (sty <| es_opacity := v |>)
  else if eqb k "font" then Ok (sty <| es_font := v |>)
  else if eqb k "text_size" then Ok (sty <| es_text_size := v |>)
  else if eqb k "arrow_size" then Ok (sty <| es_arrow := v |>)
  else if eqb k "label_style" then Ok (sty <| es_label_style := v |>)
  else if eqb k "line_width" then Ok (sty <| es_line_width := v |>)
  else Ok (sty <| es_extra := dset (es_extra sty) ("_" +:+ k) v |>).
(** The same for EdgeStyle.complement, EdgeStyle.py:37-47; see [complement_es]. *)
Definition es_complement (d : sdict) (sty : estyle) : res estyle := rfold es_complement1 sty d.

(** EdgeStyle.invert_colours, EdgeStyle.py:64-78 ([text_colour] at line 73 is the
    property of lines 97-101). *)
Definition es_text_colour (sty : estyle) : colour :=
  match es_text sty with Some c => c | None => es_colour sty end.
(** EdgeStyle.invert_colours, EdgeStyle.py:64-78. *)
Definition es_invert (sty : estyle) : res estyle :=
  let! cp := es_copy sty in
  let! cp := match es_text_based cp with
            | Some true => Ok (cp <| es_text := None |>)
            | _ => es_set_text (PCol (CInvert (es_text_colour cp))) cp
            end in
  Ok (es_put_colour (CInvert (es_colour cp)) cp).

(** EdgeStyle.__getstate__ / __setstate__, EdgeStyle.py:113-133, composed: the
    derived-colour flag and the extra attributes are lost. *)
Definition es_deepcopy (sty : estyle) : estyle :=
  sty <| es_text_based := None |> <| es_extra := [] |>.
