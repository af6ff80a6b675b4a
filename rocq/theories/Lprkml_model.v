(** Model of /repo/pyprom/dividetree.py:164-197, the elements of a local
    prominent region that are handed to the KML writer. *)
From Verif Require Import Base_model Graph_model Divide_model Kml_model Walk_model.

(** The WKT text of the [shape] and the text of the [feet] of the objects, as the
    writer asks for them (kmlwriter.py:183-189, 220). *)
Record pictures := Pictures {
  pic_summit : nat -> string * string;
  pic_saddle : nat -> string * string;
  pic_link : nat -> string }.

Section region.
  Variable w : world.
  Variable pic : pictures.

  (** kmlwriter.py:127-155: how the writer sees the objects. *)
  Definition see_summit (a : nat) : kfeature := KLoc Kml_model.KSummit (pic_summit pic a).1 (pic_summit pic a).2.
  Definition see_saddle (i : nat) : kfeature :=
    match w_saddles w !! i with
    | None => KOther
    | Some s =>
        KLoc (if Walk_model.is_runoff w i then Kml_model.KRunoff else Kml_model.KSaddle (disqualified s))
          (pic_saddle pic i).1 (pic_saddle pic i).2
    end.
  Definition see_link (k : nat) : kfeature := KLinker (pic_link pic k).

  (** dividetree.py:189-197 [LPRpath.elements_for_kml]; the state of the loop is
      [saddles], [summits], [linkers]. *)
  Definition path_elements (path : list nat) : res (list kfeature) :=
    let* (acc) := foldM (fun k (acc : list kfeature * list kfeature * list kfeature) =>
        match w_links w !! k with
        | None => Err AttributeError
        | Some l => Ok (acc.1.1 ++ [see_saddle (ln_saddle l)], acc.1.2 ++ [see_summit (ln_summit l)], acc.2 ++ [see_link k])
        end) path ([], [], []) in
    Ok (acc.1.2 ++ acc.1.1 ++ acc.2).
  (** dividetree.py:169-173 [LPRPaths.elements_for_kml] *)
  Definition region_elements (p : lpr) : res (list kfeature) :=
    foldM (fun (e : list nat * nat) elements => let* es := path_elements e.1 in Ok (elements ++ es)) (lp_paths p) [].
End region.
