(** Model of /repo/pyprom/lib/kmlwriter.py. *)
From Verif Require Export Base_model.
From stdpp Require Export strings.

(** The classes of locations that the writer can place. *)
Inductive kclass := KSummit | KRunoff | KSaddle (disqualified : bool) | KSpot.

(** What can be passed to the writer.  A geometry is given by its WKT text, the
    elevation by the text of its name.  [KMap] is a DomainMap with the contents
    of linkers, saddles, summits, runoffs and summit_domains.  [KOther] is an
    object of any other type. *)
Inductive kfeature :=
  | KLoc (c : kclass) (wkt label : string)
  | KLinker (wkt : string)
  | KDomain (wkt label : string)
  | KContainer (members : list kfeature)
  | KMap (linkers saddles summits runoffs domains : list kfeature)
  | KOther.

(** A placemark: [styleUrl], geometry and name. *)
Record placemark := Pm { pm_style : string; pm_wkt : string; pm_label : string }.

(** kmlwriter.py:60-103, the writer object. *)
Record kmlwriter := Kml {
  k_spots_wkt : gset string;
  k_linkers_wkt : gset string;
  k_linkers : list placemark;
  k_saddles : list placemark;
  k_summits : list placemark;
  k_runoffs : list placemark;
  k_spots : list placemark;
  k_domains : list placemark }.
Definition kml_new : kmlwriter := Kml ∅ ∅ [] [] [] [] [] [].

(** kmlwriter.py:127-144, the type name passed on. *)
Definition type_name (c : kclass) : string :=
  match c with
  | KSummit => "Summit"
  | KRunoff => "RunOff"
  | KSaddle true => "BasinSaddle"
  | KSaddle false => "Saddle"
  | KSpot => "SpotElevation"
  end.

(** kmlwriter.py:175-212 [_append_spotElevation_derivative].  The description
    text is left out. *)
Definition append_loc (w : kmlwriter) (feature_type wkt label : string) : kmlwriter :=
  let key := (feature_type ++ wkt)%string in
  if decide (key ∈ k_spots_wkt w) then w
  else
    let 'Kml seen lseen li sa su ru sp do := w in
    let seen := {[key]} ∪ seen in
    if decide (feature_type = "BasinSaddle"%string) then Kml seen lseen li (sa ++ [Pm "#basinsaddle" wkt label]) su ru sp do
    else if decide (feature_type = "Saddle"%string) then Kml seen lseen li (sa ++ [Pm "#saddle" wkt label]) su ru sp do
    else if decide (feature_type = "Summit"%string) then Kml seen lseen li sa (su ++ [Pm "#summit" wkt label]) ru sp do
    else if decide (feature_type = "RunOff"%string) then Kml seen lseen li sa su (ru ++ [Pm "#runoff" wkt label]) sp do
    else if decide (feature_type = "SpotElevation"%string) then Kml seen lseen li sa su ru (sp ++ [Pm "#spotelevation" wkt label]) do
    else Kml seen lseen li sa su ru sp do.

(** kmlwriter.py:214-223 [_append_linker] *)
Definition append_linker (w : kmlwriter) (wkt : string) : kmlwriter :=
  if decide (wkt ∈ k_linkers_wkt w) then w
  else
    let 'Kml seen lseen li sa su ru sp do := w in
    Kml seen ({[wkt]} ∪ lseen) (li ++ [Pm "" wkt ""]) sa su ru sp do.

(** kmlwriter.py:165-172 [_append_summit_domain] *)
Definition append_domain (w : kmlwriter) (wkt label : string) : kmlwriter :=
  let 'Kml seen lseen li sa su ru sp do := w in
  Kml seen lseen li sa su ru sp (do ++ [Pm "" wkt label]).

(** kmlwriter.py:116-163 [append] and, for the members, 105-114 [extend]. *)
Fixpoint kml_append (f : kfeature) (w : kmlwriter) : res kmlwriter :=
  let extend := fix extend (fs : list kfeature) (w : kmlwriter) : res kmlwriter :=
    match fs with
    | [] => Ok w
    | f :: fs => let* w := kml_append f w in extend fs w
    end in
  match f with
  | KContainer fs => extend fs w
  | KLoc c wkt label => Ok (append_loc w (type_name c) wkt label)
  | KLinker wkt => Ok (append_linker w wkt)
  | KMap li sa su ru do =>
      let* w := extend li w in
      let* w := extend sa w in
      let* w := extend su w in
      let* w := extend ru w in
      extend do w
  | KDomain wkt label => Ok (append_domain w wkt label)
  | KOther => Err OtherError
  end.
(** kmlwriter.py:105-114 [extend] *)
Definition kml_extend (fs : list kfeature) (w : kmlwriter) : res kmlwriter := foldM kml_append fs w.

(** kmlwriter.py:225-263 [generateDocument]: the folders of the document, with
    their names. *)
Definition document (w : kmlwriter) : list (string * list placemark) :=
  filter (fun f => f.2 <> [])
    [("Saddles"%string, k_saddles w); ("Summits"%string, k_summits w);
     ("SpotElevations"%string, k_spots w); ("Runoffs"%string, k_runoffs w);
     ("Linkers"%string, k_linkers w); ("SummitDomains"%string, k_domains w)].
