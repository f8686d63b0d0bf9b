open Model
let unhex s = List.init (String.length s / 2) (fun i -> Char.chr (int_of_string ("0x" ^ String.sub s (2*i) 2)))
let hex l = String.concat "" (List.map (fun c -> Printf.sprintf "%02x" (Char.code c)) l)
let rec nat n = if n = 0 then O else S (nat (n-1))
let () = try while true do
  let l = unhex (input_line stdin) in
  (match json_loads l with
   | Ok v -> print_endline ("OK " ^ hex (json_dumps None v) ^ " " ^ hex (json_dumps (Some (nat 4)) v) ^ " " ^ hex (py_str v))
   | Err (EValue _) -> print_endline "VALUE"
   | Err (EUnmodelled _) -> print_endline "UNM"
   | Err _ -> print_endline "OTHER")
  done with End_of_file -> ()
