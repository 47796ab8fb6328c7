(** Html.v -- model of src/render/html/{builder,attributes,escape}.rs: writing HTML tags into the
    context's buffer.  The buffer is the text written so far. *)
From Verif Require Import Base Strings Attr.

(** SOLO_HTML_TAGS, src/render/html/builder.rs:35-38. *)
Definition SOLO_HTML_TAGS : list str :=
  map lit ["area"; "base"; "br"; "col"; "embed"; "hr"; "img"; "input"; "link"; "meta"; "param";
           "source"; "track"; "wbr"]%string.
(** should_close_tag, builder.rs:318-320. *)
Definition should_close_tag (tag : str) : bool := negb (smem tag SOLO_HTML_TAGS).
(** is_alphanumeric, builder.rs:311-315 (used only in debug assertions). *)
Definition is_alphanumeric (s : str) : bool := forallb (fun c => is_alpha c || is_digit c || ceqb c 45) s.

(** push_raw / push_raw_str / push_escaped, src/render/html/context.rs:320-333. *)
Definition push_raw_str (buf s : str) : str := buf ++ s.
Definition push_escaped (buf s : str) : str := buf ++ escape s.

(** HtmlBuilderTag, builder.rs:140-148 (the context is the buffer). *)
Record btag : Type := BTag { bt_buf : str; bt_tag : str; bt_in_tag : bool; bt_in_contents : bool }.
(** HtmlBuilderTag::new, builder.rs:152-162. *)
Definition tag_new (buf tag : str) : btag :=
  BTag (push_raw_str (push_raw_str buf [60%N]) tag) tag true false.
Definition set_buf (b : btag) (buf : str) : btag := BTag buf (bt_tag b) (bt_in_tag b) (bt_in_contents b).
(** attr_key, builder.rs:164-174.  The debug assertions are not modelled: they are absent from
    release builds. *)
Definition attr_key (b : btag) (key : str) (has_value : bool) : btag :=
  let buf := push_escaped (push_raw_str (bt_buf b) [32%N]) key in
  set_buf b (if has_value then push_raw_str buf [61%N] else buf).
(** attr_value, builder.rs:176-184. *)
Definition attr_value (b : btag) (parts : list str) : btag :=
  let buf := push_raw_str (bt_buf b) [34%N] in
  let buf := fold_left push_escaped parts buf in
  set_buf b (push_raw_str buf [34%N]).
(** attr_single, builder.rs:186-207. *)
Definition attr_single (b : btag) (key : str) (parts : list str) : btag :=
  let has_value := negb (forallb (fun s => match s with [] => true | _ => false end) parts) in
  let b := attr_key b key has_value in
  if has_value then attr_value b parts else b.
(** AddedAttributes, src/render/html/attributes.rs:27-30. *)
Record added : Type := Added { ad_entries : list (str * list str * bool); ad_map : option btmap }.
(** filter_entries, builder.rs:210-222. *)
Definition filter_entries (a : added) : list (str * list str) :=
  map fst (filter (fun e => snd e) (ad_entries a)).
(** First loop of attr, builder.rs:228-245: returns the merged keys too. *)
Fixpoint attr_merge (b : btag) (m : btmap) (es : list (str * list str)) (merged : list str) : btag * list str :=
  match es with
  | [] => (b, merged)
  | (key, parts) :: es' =>
      match bt_get m key with
      | Some v => attr_merge (attr_single b key (parts ++ [[32%N]; v])) m es' (key :: merged)
      | None => attr_merge b m es' merged
      end
  end.
(** HtmlBuilderTag::attr, builder.rs:209-264. *)
Definition attr (b : btag) (a : added) : btag :=
  let '(b, merged) := match ad_map a with
                      | Some m => attr_merge b m (filter_entries a) []
                      | None => (b, [])
                      end in
  let b := fold_left (fun b e => if smem (fst e) merged then b else attr_single b (fst e) (snd e))
                     (filter_entries a) b in
  match ad_map a with
  | Some m => fold_left (fun b kv => if smem (fst kv) merged then b else attr_single b (fst kv) [snd kv]) m b
  | None => b
  end.
(** content_start, builder.rs:266-274; [None] is the assertion panic. *)
Definition content_start (b : btag) : option btag :=
  let buf := if bt_in_tag b then push_raw_str (bt_buf b) [62%N] else bt_buf b in
  if bt_in_contents b then None else Some (BTag buf (bt_tag b) false true).
(** Drop, builder.rs:295-307. *)
Definition tag_drop (b : btag) : str :=
  let buf := if bt_in_tag b && negb (bt_in_contents b) then push_raw_str (bt_buf b) [62%N] else bt_buf b in
  if should_close_tag (bt_tag b)
  then push_raw_str (push_raw_str (push_raw_str buf (lit "</")) (bt_tag b)) [62%N] else buf.

(** What a renderer does with the builder, as a tree: escaped text, raw text, or a tag with its
    [attr] calls and then possibly its [contents]/[inner] call. *)
Inductive node : Type :=
| NText (s : str)
| NRaw (s : str)
| NTag (tag : str) (attrs : list added) (contents : option (list node)).
(** Running such a tree: builder.rs:152-307. *)
Fixpoint write_node (buf : str) (n : node) : option str :=
  match n with
  | NText s => Some (push_escaped buf s)
  | NRaw s => Some (push_raw_str buf s)
  | NTag tag attrs contents =>
      let b := fold_left attr attrs (tag_new buf tag) in
      match contents with
      | None => Some (tag_drop b)
      | Some ns =>
          match content_start b with
          | None => None
          | Some b =>
              match (fix go buf ns := match ns with
                                      | [] => Some buf
                                      | n :: ns' => match write_node buf n with
                                                    | Some buf => go buf ns'
                                                    | None => None
                                                    end
                                      end) (bt_buf b) ns with
              | Some buf => Some (tag_drop (set_buf b buf))
              | None => None
              end
          end
      end
  end.
Fixpoint write_nodes (buf : str) (ns : list node) : option str :=
  match ns with
  | [] => Some buf
  | n :: ns' => match write_node buf n with Some buf => write_nodes buf ns' | None => None end
  end.
