open M
let rec pos n = if n=1 then XH else if n land 1=1 then XI (pos (n lsr 1)) else XO (pos (n lsr 1))
let z n = if n=0 then Z0 else if n>0 then Zpos (pos n) else Zneg (pos (-n))
let cl s = List.init (String.length s) (String.get s)
let sc l = String.init (List.length l) (List.nth l)
let fl f = if f=0. then S754_zero (1./.f<0.) else
  let (m,e)=Float.frexp (abs_float f) in
  let m = int_of_float (m *. 9007199254740992.) in S754_finite (f<0., pos m, z (e-53))
let parse s =
  let i = ref 0 in let n=String.length s in
  let ws () = while !i<n && (match s.[!i] with ' '|'\n'|'\t'|'\r'->true|_->false) do incr i done in
  let rec v () = ws (); match s.[!i] with
   '{' -> incr i; ws (); if s.[!i]='}' then (incr i; VDict []) else begin
      let r=ref [] in let continue=ref true in
      while !continue do ws (); let k=str () in ws (); assert (s.[!i]=':'); incr i; let x=v () in r:=(cl k,x):: !r; ws ();
        if s.[!i]=',' then incr i else (assert (s.[!i]='}'); incr i; continue:=false) done; VDict (List.rev !r) end
  | '[' -> incr i; ws (); if s.[!i]=']' then (incr i; VList []) else begin
      let r=ref [] in let continue=ref true in
      while !continue do let x=v () in r:=x:: !r; ws ();
        if s.[!i]=',' then incr i else (assert (s.[!i]=']'); incr i; continue:=false) done; VList (List.rev !r) end
  | '"' -> VStr (cl (str ()))
  | 't' -> i:= !i+4; VBool true | 'f' -> i:= !i+5; VBool false | 'n' -> i:= !i+4; VNone
  | _ -> let st= !i in while !i<n && (match s.[!i] with '0'..'9'|'-'|'+'|'.'|'e'|'E'->true|_->false) do incr i done;
     let t=String.sub s st (!i-st) in if String.contains t '.' || String.contains t 'e' || String.contains t 'E' then VFloat (fl (float_of_string t)) else VInt (z (int_of_string t))
  and str () = assert (s.[!i]='"'); incr i; let b=Buffer.create 10 in
     while s.[!i]<>'"' do (assert (s.[!i]<>'\\'); Buffer.add_char b s.[!i]; incr i) done; incr i; Buffer.contents b
  in v ()
let load f = let c=open_in_bin f in let s=really_input_string c (in_channel_length c) in close_in c; parse s
let d="/repo/spine_json_lib/test/data/"
let get = function Ok a -> a | Err _ -> failwith "err"
let () =
  let e = match mk_editor (load (d^"original/elvira_original.json")) with Ok e -> e | Err e -> (match e with EUnmodelled w | EType w | EAttr w -> print_endline (sc w)| EKey w -> print_endline ("key "^sc w) | _ -> print_endline "other"); exit 1 in
  print_endline "loaded";
  let (e',r) = run_erase (List.map cl ["attack";"special1";"levelup";"prone"]) true false e in
  let (j,_) = get r in
  Printf.printf "elvira json %b images %b\n%!" (py_eq j (load (d^"cleaned_up/elvira_cleaned_up.json"))) (py_eq (imgs_val e'.e_images) (load (d^"cleaned_up/images_path_cleaned_up.json")));
  let e = get (mk_editor (load (d^"original/masquerade_skeleton.json"))) in
  let (e',r) = run_skins [cl "basic"] false e in
  let ((sl,at),im) = get r in
  Printf.printf "masq images refs %b\n" (py_eq (imgs_val e'.e_images) (load (d^"cleaned_up/masquerade_json_images_refs.json")));
  print_endline (String.concat " " (List.sort compare (List.map sc sl)));
  print_endline (String.concat " " (List.sort compare (List.map sc at)));
  print_endline (string_of_int (List.length im));
  print_endline (String.concat " " (List.sort compare (List.map (function Some s -> sc s | None -> "NONE") im)))
