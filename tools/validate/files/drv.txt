open Model
let chars s = List.init (String.length s) (fun i -> s.[i])
let str l = String.concat "" (List.map (String.make 1) l)
let unhex s = List.init (String.length s / 2) (fun i -> Char.chr (int_of_string ("0x" ^ String.sub s (2*i) 2)))
let split s = if s = "" then [] else String.split_on_char '/' s
let place s = List.map chars (split s)
let err = function
  | EOs FileNotFound -> "FileNotFoundError" | EOs FileExists -> "FileExistsError"
  | EOs NotADirectory -> "NotADirectoryError" | EOs IsADirectory -> "IsADirectoryError"
  | EValue _ -> "ValueError" | _ -> "OTHER"
(* line: cwd TAB entries(path=D|F, comma) TAB op TAB hexpath TAB probes *)
let () = try while true do
  match String.split_on_char '\t' (input_line stdin) with
  | [cwd; ents; op; hp; probes] ->
    let f = List.fold_left (fun f e -> match String.split_on_char '=' e with
      | [p; "D"] -> fset (place p) Dir f | [p; _] -> fset (place p) (File (chars "old")) f | _ -> failwith "ent")
      (fun _ -> None) (String.split_on_char ',' ents) in
    let cwd = place cwd in
    let p = unhex hp in
    let f', r = (match op with
      | "save" -> let f', r = save cwd p (chars "new") f in (Obj.magic f', (match r with Ok _ -> "OK" | Err e -> err e))
      | "makedirs" -> let f', r = os_makedirs cwd p f in (Obj.magic f', (match r with Ok _ -> "OK" | Err e -> err e))
      | "read" -> (f, (match read_file cwd p f with Ok t -> "OK " ^ str t | Err e -> err e))
      | "stat" -> (f, (match os_stat cwd p f with Ok Dir -> "D" | Ok _ -> "F" | Err e -> err e))
      | "split" -> (f, (let (a, b) = path_split p in str a ^ "|" ^ str b))
      | _ -> failwith "op") in
    let out = List.map (fun q -> match f' (place q) with None -> "-" | Some Dir -> "D" | Some (File t) -> str t) (String.split_on_char ',' probes) in
    print_endline (r ^ "\t" ^ String.concat "," out)
  | _ -> failwith "line"
  done with End_of_file -> ()
