(** The built-in proper nouns: what build.rs:14-58 generates from
    data/proper-nouns.tsv, and what is needed to write such tables down. *)
From Coq Require Import Bool Arith NArith Ascii String List.
From Verif Require Import Base.
Import ListNotations.

(** A string literal holds the bytes of the source file: UTF-8, decoded here
    (for well-formed input). *)
Fixpoint utf8 (fuel : nat) (b : list N) : str :=
  match fuel, b with
  | S k, x :: r =>
      if (x <? 128)%N then x :: utf8 k r
      else if (x <? 224)%N then match r with y :: r' => ((x - 192) * 64 + (y - 128))%N :: utf8 k r' | [] => [] end
      else if (x <? 240)%N then match r with y :: z :: r' => ((x - 224) * 4096 + (y - 128) * 64 + (z - 128))%N :: utf8 k r' | _ => [] end
      else match r with y :: z :: t :: r' => ((x - 240) * 262144 + (y - 128) * 4096 + (z - 128) * 64 + (t - 128))%N :: utf8 k r' | _ => [] end
  | _, _ => []
  end.
Definition u (s : string) : str := let b := map N_of_ascii (list_ascii_of_string s) in utf8 (List.length b) b.

(** build.rs:32-35: canonical form (with curly apostrophes) and search key. *)
Definition PROPER_NOUNS : list (str * str) := map (fun p => (u (fst p), u (snd p))) [
  ("Hongdown", "hongdown");
  ("Clojure", "clojure");
  ("Elixir", "elixir");
  ("Erlang", "erlang");
  ("Haskell", "haskell");
  ("Java", "java");
  ("JavaScript", "javascript");
  ("Kotlin", "kotlin");
  ("PHP", "php");
  ("Perl", "perl");
  ("Python", "python");
  ("Ruby", "ruby");
  ("Scala", "scala");
  ("TypeScript", "typescript");
  ("Angular", "angular");
  ("Bun", "bun");
  ("Deno", "deno");
  ("Express", "express");
  ("Gatsby", "gatsby");
  ("NestJS", "nestjs");
  ("Next.js", "next.js");
  ("Node.js", "node.js");
  ("Nuxt", "nuxt");
  ("React", "react");
  ("Svelte", "svelte");
  ("SvelteKit", "sveltekit");
  ("Vue", "vue");
  ("Cassandra", "cassandra");
  ("CouchDB", "couchdb");
  ("Elasticsearch", "elasticsearch");
  ("MariaDB", "mariadb");
  ("MongoDB", "mongodb");
  ("MySQL", "mysql");
  ("Neo4j", "neo4j");
  ("Oracle", "oracle");
  ("Postgres", "postgres");
  ("PostgreSQL", "postgresql");
  ("RabbitMQ", "rabbitmq");
  ("Redis", "redis");
  ("SQLite", "sqlite");
  ("Android", "android");
  ("CentOS", "centos");
  ("Debian", "debian");
  ("Fedora", "fedora");
  ("FreeBSD", "freebsd");
  ("iOS", "ios");
  ("Linux", "linux");
  ("macOS", "macos");
  ("OpenBSD", "openbsd");
  ("Ubuntu", "ubuntu");
  ("Windows", "windows");
  ("Cargo", "cargo");
  ("Composer", "composer");
  ("Gradle", "gradle");
  ("Maven", "maven");
  ("npm", "npm");
  ("NuGet", "nuget");
  ("pip", "pip");
  ("pnpm", "pnpm");
  ("RubyGems", "rubygems");
  ("Yarn", "yarn");
  ("Amazon Web Services", "amazon web services");
  ("AWS", "aws");
  ("Azure", "azure");
  ("Cloudflare", "cloudflare");
  ("DigitalOcean", "digitalocean");
  ("GCP", "gcp");
  ("Google Cloud Platform", "google cloud platform");
  ("Heroku", "heroku");
  ("Netlify", "netlify");
  ("Vercel", "vercel");
  ("Bitbucket", "bitbucket");
  ("Codeberg", "codeberg");
  ("Codeberg Pages", "codeberg pages");
  ("GitHub", "github");
  ("GitHub Actions", "github actions");
  ("GitHub Pages", "github pages");
  ("GitLab", "gitlab");
  ("Mercurial", "mercurial");
  ("Subversion", "subversion");
  ("Babel", "babel");
  ("Parcel", "parcel");
  ("Rollup", "rollup");
  ("Vite", "vite");
  ("Webpack", "webpack");
  ("Docker", "docker");
  ("Kubernetes", "kubernetes");
  ("OpenShift", "openshift");
  ("Podman", "podman");
  ("CircleCI", "circleci");
  ("Jenkins", "jenkins");
  ("JUnit", "junit");
  ("Jest", "jest");
  ("Mocha", "mocha");
  ("Pytest", "pytest");
  ("RSpec", "rspec");
  ("Afrikaans", "afrikaans");
  ("Albanian", "albanian");
  ("Amharic", "amharic");
  ("Arabic", "arabic");
  ("Armenian", "armenian");
  ("Assamese", "assamese");
  ("Azerbaijani", "azerbaijani");
  ("Bangla", "bangla");
  ("Basque", "basque");
  ("Belarusian", "belarusian");
  ("Bengali", "bengali");
  ("Bosnian", "bosnian");
  ("Bulgarian", "bulgarian");
  ("Burmese", "burmese");
  ("Catalan", "catalan");
  ("Chinese", "chinese");
  ("Croatian", "croatian");
  ("Czech", "czech");
  ("Danish", "danish");
  ("Dutch", "dutch");
  ("English", "english");
  ("Estonian", "estonian");
  ("Filipino", "filipino");
  ("Finnish", "finnish");
  ("French", "french");
  ("Galician", "galician");
  ("Georgian", "georgian");
  ("German", "german");
  ("Greek", "greek");
  ("Gujarati", "gujarati");
  ("Hausa", "hausa");
  ("Hebrew", "hebrew");
  ("Hindi", "hindi");
  ("Hungarian", "hungarian");
  ("Icelandic", "icelandic");
  ("Indonesian", "indonesian");
  ("Irish", "irish");
  ("Italian", "italian");
  ("Japanese", "japanese");
  ("Javanese", "javanese");
  ("Kannada", "kannada");
  ("Kazakh", "kazakh");
  ("Khmer", "khmer");
  ("Korean", "korean");
  ("Kurdish", "kurdish");
  ("Kyrgyz", "kyrgyz");
  ("Lao", "lao");
  ("Latvian", "latvian");
  ("Lithuanian", "lithuanian");
  ("Macedonian", "macedonian");
  ("Malay", "malay");
  ("Malayalam", "malayalam");
  ("Maltese", "maltese");
  ("Mandarin", "mandarin");
  ("Marathi", "marathi");
  ("Mongolian", "mongolian");
  ("Nepali", "nepali");
  ("Norwegian", "norwegian");
  ("Odia", "odia");
  ("Pashto", "pashto");
  ("Persian", "persian");
  ("Polish", "polish");
  ("Portuguese", "portuguese");
  ("Punjabi", "punjabi");
  ("Romanian", "romanian");
  ("Russian", "russian");
  ("Sanskrit", "sanskrit");
  ("Serbian", "serbian");
  ("Shona", "shona");
  ("Sindhi", "sindhi");
  ("Sinhala", "sinhala");
  ("Slovak", "slovak");
  ("Slovenian", "slovenian");
  ("Somali", "somali");
  ("Spanish", "spanish");
  ("Sundanese", "sundanese");
  ("Swahili", "swahili");
  ("Swedish", "swedish");
  ("Tagalog", "tagalog");
  ("Tajik", "tajik");
  ("Tamil", "tamil");
  ("Tatar", "tatar");
  ("Telugu", "telugu");
  ("Thai", "thai");
  ("Tibetan", "tibetan");
  ("Turkish", "turkish");
  ("Turkmen", "turkmen");
  ("Ukrainian", "ukrainian");
  ("Urdu", "urdu");
  ("Uyghur", "uyghur");
  ("Uzbek", "uzbek");
  ("Vietnamese", "vietnamese");
  ("Welsh", "welsh");
  ("Xhosa", "xhosa");
  ("Yiddish", "yiddish");
  ("Yoruba", "yoruba");
  ("Zulu", "zulu");
  ("Afghanistan", "afghanistan");
  ("Albania", "albania");
  ("Algeria", "algeria");
  ("Andorra", "andorra");
  ("Angola", "angola");
  ("Argentina", "argentina");
  ("Armenia", "armenia");
  ("Australia", "australia");
  ("Austria", "austria");
  ("Azerbaijan", "azerbaijan");
  ("Bahamas", "bahamas");
  ("Bahrain", "bahrain");
  ("Bangladesh", "bangladesh");
  ("Barbados", "barbados");
  ("Belarus", "belarus");
  ("Belgium", "belgium");
  ("Belize", "belize");
  ("Benin", "benin");
  ("Bhutan", "bhutan");
  ("Bolivia", "bolivia");
  ("Bosnia and Herzegovina", "bosnia and herzegovina");
  ("Botswana", "botswana");
  ("Brazil", "brazil");
  ("Brunei", "brunei");
  ("Bulgaria", "bulgaria");
  ("Burkina Faso", "burkina faso");
  ("Burundi", "burundi");
  ("Cambodia", "cambodia");
  ("Cameroon", "cameroon");
  ("Canada", "canada");
  ("Chad", "chad");
  ("Chile", "chile");
  ("China", "china");
  ("People’s Republic of China", "people’s republic of china");
  ("Republic of China", "republic of china");
  ("PRC", "prc");
  ("ROC", "roc");
  ("Colombia", "colombia");
  ("Comoros", "comoros");
  ("Costa Rica", "costa rica");
  ("Croatia", "croatia");
  ("Cuba", "cuba");
  ("Cyprus", "cyprus");
  ("Czechia", "czechia");
  ("Denmark", "denmark");
  ("Djibouti", "djibouti");
  ("Dominica", "dominica");
  ("Ecuador", "ecuador");
  ("Egypt", "egypt");
  ("El Salvador", "el salvador");
  ("Eritrea", "eritrea");
  ("Estonia", "estonia");
  ("Eswatini", "eswatini");
  ("Ethiopia", "ethiopia");
  ("Fiji", "fiji");
  ("Finland", "finland");
  ("France", "france");
  ("French Republic", "french republic");
  ("Gabon", "gabon");
  ("Gambia", "gambia");
  ("Georgia", "georgia");
  ("Germany", "germany");
  ("Federal Republic of Germany", "federal republic of germany");
  ("Ghana", "ghana");
  ("Greece", "greece");
  ("Grenada", "grenada");
  ("Guatemala", "guatemala");
  ("Guinea", "guinea");
  ("Guyana", "guyana");
  ("Haiti", "haiti");
  ("Honduras", "honduras");
  ("Hungary", "hungary");
  ("Iceland", "iceland");
  ("India", "india");
  ("Indonesia", "indonesia");
  ("Iran", "iran");
  ("Iraq", "iraq");
  ("Ireland", "ireland");
  ("Israel", "israel");
  ("Italy", "italy");
  ("Jamaica", "jamaica");
  ("Japan", "japan");
  ("State of Japan", "state of japan");
  ("Jordan", "jordan");
  ("Kazakhstan", "kazakhstan");
  ("Kenya", "kenya");
  ("Kiribati", "kiribati");
  ("Korea", "korea");
  ("Republic of Korea", "republic of korea");
  ("Democratic People’s Republic of Korea", "democratic people’s republic of korea");
  ("ROK", "rok");
  ("DPRK", "dprk");
  ("Kosovo", "kosovo");
  ("Kuwait", "kuwait");
  ("Kyrgyzstan", "kyrgyzstan");
  ("Laos", "laos");
  ("Latvia", "latvia");
  ("Lebanon", "lebanon");
  ("Lesotho", "lesotho");
  ("Liberia", "liberia");
  ("Libya", "libya");
  ("Liechtenstein", "liechtenstein");
  ("Lithuania", "lithuania");
  ("Luxembourg", "luxembourg");
  ("Madagascar", "madagascar");
  ("Malawi", "malawi");
  ("Malaysia", "malaysia");
  ("Maldives", "maldives");
  ("Mali", "mali");
  ("Malta", "malta");
  ("Mauritania", "mauritania");
  ("Mauritius", "mauritius");
  ("Mexico", "mexico");
  ("Micronesia", "micronesia");
  ("Moldova", "moldova");
  ("Monaco", "monaco");
  ("Mongolia", "mongolia");
  ("Montenegro", "montenegro");
  ("Morocco", "morocco");
  ("Mozambique", "mozambique");
  ("Myanmar", "myanmar");
  ("Namibia", "namibia");
  ("Nauru", "nauru");
  ("Nepal", "nepal");
  ("Netherlands", "netherlands");
  ("New Zealand", "new zealand");
  ("Nicaragua", "nicaragua");
  ("Niger", "niger");
  ("Nigeria", "nigeria");
  ("North Korea", "north korea");
  ("North Macedonia", "north macedonia");
  ("Norway", "norway");
  ("Oman", "oman");
  ("Pakistan", "pakistan");
  ("Palau", "palau");
  ("Palestine", "palestine");
  ("Panama", "panama");
  ("Papua New Guinea", "papua new guinea");
  ("Paraguay", "paraguay");
  ("Peru", "peru");
  ("Philippines", "philippines");
  ("Poland", "poland");
  ("Portugal", "portugal");
  ("Qatar", "qatar");
  ("Romania", "romania");
  ("Russia", "russia");
  ("Russian Federation", "russian federation");
  ("Rwanda", "rwanda");
  ("Samoa", "samoa");
  ("San Marino", "san marino");
  ("Saudi Arabia", "saudi arabia");
  ("Senegal", "senegal");
  ("Serbia", "serbia");
  ("Seychelles", "seychelles");
  ("Sierra Leone", "sierra leone");
  ("Singapore", "singapore");
  ("Slovakia", "slovakia");
  ("Slovenia", "slovenia");
  ("Somalia", "somalia");
  ("South Africa", "south africa");
  ("South Korea", "south korea");
  ("South Sudan", "south sudan");
  ("Spain", "spain");
  ("Sri Lanka", "sri lanka");
  ("Sudan", "sudan");
  ("Suriname", "suriname");
  ("Sweden", "sweden");
  ("Switzerland", "switzerland");
  ("Syria", "syria");
  ("Taiwan", "taiwan");
  ("Tajikistan", "tajikistan");
  ("Tanzania", "tanzania");
  ("Thailand", "thailand");
  ("Togo", "togo");
  ("Tonga", "tonga");
  ("Trinidad and Tobago", "trinidad and tobago");
  ("Tunisia", "tunisia");
  ("Turkey", "turkey");
  ("Turkmenistan", "turkmenistan");
  ("Tuvalu", "tuvalu");
  ("Uganda", "uganda");
  ("Ukraine", "ukraine");
  ("United Arab Emirates", "united arab emirates");
  ("UAE", "uae");
  ("United Kingdom", "united kingdom");
  ("UK", "uk");
  ("United States", "united states");
  ("United States of America", "united states of america");
  ("USA", "usa");
  ("Uruguay", "uruguay");
  ("Uzbekistan", "uzbekistan");
  ("Vanuatu", "vanuatu");
  ("Vatican City", "vatican city");
  ("Venezuela", "venezuela");
  ("Vietnam", "vietnam");
  ("Yemen", "yemen");
  ("Zambia", "zambia");
  ("Zimbabwe", "zimbabwe");
  ("Hong Kong", "hong kong");
  ("Macau", "macau");
  ("Puerto Rico", "puerto rico");
  ("Greenland", "greenland");
  ("Faroe Islands", "faroe islands");
  ("Gibraltar", "gibraltar");
  ("Bermuda", "bermuda");
  ("Guam", "guam");
  ("American Samoa", "american samoa");
  ("Northern Mariana Islands", "northern mariana islands");
  ("U.S. Virgin Islands", "u.s. virgin islands");
  ("British Virgin Islands", "british virgin islands");
  ("Cayman Islands", "cayman islands");
  ("Turks and Caicos Islands", "turks and caicos islands");
  ("Aruba", "aruba");
  ("Curaçao", "curaçao");
  ("French Polynesia", "french polynesia");
  ("New Caledonia", "new caledonia");
  ("Guadeloupe", "guadeloupe");
  ("Martinique", "martinique");
  ("Réunion", "réunion");
  ("Mayotte", "mayotte");
  ("French Guiana", "french guiana");
  ("Saint Martin", "saint martin");
  ("Saint Barthélemy", "saint barthélemy");
  ("Africa", "africa");
  ("African", "african");
  ("America", "america");
  ("American", "american");
  ("Americas", "americas");
  ("Antarctica", "antarctica");
  ("Antarctic", "antarctic");
  ("Asia", "asia");
  ("Asian", "asian");
  ("East Asia", "east asia");
  ("East Asian", "east asian");
  ("Southeast Asia", "southeast asia");
  ("Southeast Asian", "southeast asian");
  ("South Asia", "south asia");
  ("South Asian", "south asian");
  ("Central Asia", "central asia");
  ("Central Asian", "central asian");
  ("West Asia", "west asia");
  ("West Asian", "west asian");
  ("Australia", "australia");
  ("Australian", "australian");
  ("Europe", "europe");
  ("European", "european");
  ("Western Europe", "western europe");
  ("Western European", "western european");
  ("Eastern Europe", "eastern europe");
  ("Eastern European", "eastern european");
  ("Central Europe", "central europe");
  ("Central European", "central european");
  ("Southern Europe", "southern europe");
  ("Southern European", "southern european");
  ("Northern Europe", "northern europe");
  ("Northern European", "northern european");
  ("North America", "north america");
  ("North American", "north american");
  ("South America", "south america");
  ("South American", "south american");
  ("Central America", "central america");
  ("Central American", "central american");
  ("Latin America", "latin america");
  ("Latin American", "latin american");
  ("Middle East", "middle east");
  ("Middle Eastern", "middle eastern");
  ("Oceania", "oceania");
  ("ActivityPub", "activitypub");
  ("CSV", "csv");
  ("CommonMark", "commonmark");
  ("GraphQL", "graphql");
  ("gRPC", "grpc");
  ("JSON", "json");
  ("JWT", "jwt");
  ("Markdown", "markdown");
  ("OAuth", "oauth");
  ("OpenID", "openid");
  ("TOML", "toml");
  ("Visual Studio Code", "visual studio code");
  ("WebSocket", "websocket");
  ("XML", "xml");
  ("YAML", "yaml")
]%string.
